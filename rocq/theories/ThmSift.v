(** * Runs with segregation never fail: C58. *)
From Coq Require Import ZArith Reals List Bool Arith Lra Lia.
From RecordUpdate Require Import RecordUpdate.
From Verif Require Import State NumR Spec SpecLaws SpecStep LibList LibR ModelGrid ModelConstit ModelParticle ModelMPList
  ModelIntegr ModelMain ProofsGrid ProofsMap ProofsP2G ProofsWalls ProofsLaws ProofsInOut ProofsHist Concrete
  ThmMapping ThmWalls ThmLaws ThmInOut ThmHist ProofsStep ProofsPoints ThmStep.
Import ListNotations.
Local Open Scope R_scope.

(** What segregation reads: cell widths, constants of the segregation model, one size per class and as many fractions
    at every point. *)
Definition sieved (P : params R) (L : list (phase R)) : Prop :=
  p_seg P = true ->
  has (pdx (pG P)) /\ has (pdy (pG P)) /\ has (p_c P) /\ has (p_l P) /\
  (forall S0, sol0 L = Ok S0 -> has (s_rho_s S0)) /\ (ns (pG P) <= length (gs (pG P)))%nat /\
  all_live L (fun _ p => length (pphi p) = ns (pG P)).

(** What the laws of grains read of the material and of a point: for each class a fraction, a size and, for pouliquen,
    the friction parameters of the class; and a few numbers. *)
Definition class_attr {T} (o : option (scarr T)) (i : nat) : Prop := exists l, o = Some (Ar l) /\ (i < length l)%nat.
Definition grainy {T} (P : gridp T) (So : solid T) (p : particle T) : Prop :=
  (forall i, (i < ns P)%nat -> (i < length (pphi p))%nat /\ (i < length (gs P))%nat) /\
  has (s_K So) /\ has (s_eta_max So) /\
  match s_law So with
  | Pouliquen => has (s_rho_s So) /\
      forall i, (i < ns P)%nat -> class_attr (s_mu_0 So) i /\ class_attr (s_delta_mu So) i /\ class_attr (s_I_0 So) i
  | LinearMu => has (s_rho_s So) /\ has (s_b So) /\ scalar_attr (s_mu_0 So)
  | KenSimple => scalar_attr (s_mu_0 So)
  | _ => False
  end.
Definition able {T} (P : gridp T) (S0 So : solid T) (p : particle T) : Prop := equipped S0 So \/ grainy P So p.

(** The laws of grains on a point that is located on a grid with all its fields succeed exactly if they find this. *)
Lemma weighted_ok (p : particle R) n get : (exists r, weighted p n get = Ok r) <->
  forall i, (i < n)%nat -> (i < length (pphi p))%nat /\ exists b, get i = Ok b.
Proof.
  unfold weighted.
  assert (A : forall k m a, (exists r, foldM (fun s i => x <- nth_res (pphi p) i ;; b <- get i ;; Ok (s + x * b)) a (seq k m) = Ok r) <->
    forall i, (k <= i < k + m)%nat -> (i < length (pphi p))%nat /\ exists b, get i = Ok b).
  { intros k m. revert k. induction m as [|m IH]; intros k a; cbn [seq foldM].
    - split; [intros _ i Hi; lia|eauto].
    - split.
      + intros [r E]. apply bind_ok in E. destruct E as (a1 & E & E').
        apply bind_ok in E. destruct E as (x & Ex & E). apply bind_ok in E. destruct E as (b & Eb & _).
        intros i Hi. destruct (Nat.eq_dec i k) as [->|].
        * split; [|eauto]. unfold nth_res in Ex. destruct (nth_error (pphi p) k) eqn:N; [|discriminate].
          apply nth_error_Some. congruence.
        * apply (proj1 (IH (Datatypes.S k) a1)); [eauto|lia].
      + intros H. destruct (H k ltac:(lia)) as [H1 [b Hb]]. unfold nth_res at 1.
        apply nth_error_Some in H1. destruct (nth_error (pphi p) k) as [x|]; [|congruence]. cbn [bind]. rewrite Hb. cbn [bind].
        apply IH. intros i Hi. apply H. lia. }
  rewrite (A 0%nat n). split; intros H i Hi; apply H; lia.
Qed.
Lemma nth_res_ok {A} (l : list A) i : (exists b, nth_res l i = Ok b) <-> (i < length l)%nat.
Proof.
  unfold nth_res. rewrite <- nth_error_Some. destruct (nth_error l i); split; intros H; eauto; try congruence. destruct H; discriminate.
Qed.
Lemma class_attr_ok (o : option (scarr R)) i : (exists b, (a <- attr o ;; sc_index a i) = Ok b) <-> class_attr o i.
Proof.
  unfold class_attr. destruct o as [[a|l]|]; cbn.
  - split; [intros [b E]; discriminate|intros (l & E & _); discriminate].
  - rewrite nth_res_ok. split; [eauto|]. intros (l' & E & H). injection E as ->. exact H.
  - split; [intros [b E]; discriminate|intros (l & E & _); discriminate].
Qed.
Lemma mean_size_ok (P : params R) p : (exists r, mean_size P p = Ok r) <->
  forall i, (i < ns (pG P))%nat -> (i < length (pphi p))%nat /\ (i < length (gs (pG P)))%nat.
Proof.
  change (mean_size P p) with (weighted p (ns (pG P)) (fun i => nth_res (gs (pG P)) i)). rewrite weighted_ok.
  split; intros H i Hi; destruct (H i Hi) as [A B]; (split; [exact A|]); apply nth_res_ok; exact B.
Qed.
Lemma p_C113_law : forall P (S0 So : solid R) ip p G, reaches P p -> slens (nodes (pG P)) G ->
  In (s_law So) [Pouliquen; LinearMu; KenSimple] ->
  ((exists r, apply_law P S0 So ip p G = Ok r) <-> grainy (pG P) So p).
Proof.
  intros P S0 So ip p G HR HS HL.
  assert (V : forall MP fs, pnstar MP = pnstar p -> exists G', visualise P MP fs G = Ok G').
  { intros MP fs EN. apply visualise_total with (n := nodes (pG P)); [exact HS|]. rewrite EN. exact HR. }
  unfold grainy, apply_law, has. destruct HL as [HL|[HL|[HL|[]]]]; rewrite <- HL.
  - unfold pouliquen. cbv zeta. split.
    + intros [r E]. pbinds E. destruct (mallfin _) in E; [|discriminate]. 
      split; [|split; [|split; [|split]]].
      * intros i Hi. pose proof (proj1 (weighted_ok p _ _) (ex_intro _ _ E0) i Hi) as [A B]. split; [exact A|]. apply nth_res_ok. exact B.
      * destruct (s_K So); [discriminate|discriminate E6].
      * destruct (s_eta_max So); [discriminate|discriminate E5].
      * destruct (s_rho_s So); [discriminate|discriminate E4].
      * intros i Hi. repeat split; apply class_attr_ok.
        -- apply (proj1 (weighted_ok p _ _) (ex_intro _ _ E1) i Hi).
        -- apply (proj1 (weighted_ok p _ _) (ex_intro _ _ E2) i Hi).
        -- apply (proj1 (weighted_ok p _ _) (ex_intro _ _ E3) i Hi).
    + intros (A & B & C & D & F).
      destruct (proj2 (weighted_ok p (ns (pG P)) (fun i => nth_res (gs (pG P)) i))) as [r1 ->].
      { intros i Hi. destruct (A i Hi). split; [assumption|]. apply nth_res_ok. assumption. }
      destruct (proj2 (weighted_ok p (ns (pG P)) (fun i => a <- attr (s_mu_0 So) ;; sc_index a i))) as [r2 ->].
      { intros i Hi. destruct (A i Hi), (F i Hi) as (F1 & F2 & F3). split; [assumption|]. apply class_attr_ok. assumption. }
      destruct (proj2 (weighted_ok p (ns (pG P)) (fun i => a <- attr (s_delta_mu So) ;; sc_index a i))) as [r3 ->].
      { intros i Hi. destruct (A i Hi), (F i Hi) as (F1 & F2 & F3). split; [assumption|]. apply class_attr_ok. assumption. }
      destruct (proj2 (weighted_ok p (ns (pG P)) (fun i => a <- attr (s_I_0 So) ;; sc_index a i))) as [r4 ->].
      { intros i Hi. destruct (A i Hi), (F i Hi) as (F1 & F2 & F3). split; [assumption|]. apply class_attr_ok. assumption. }
      cbn [bind]. destruct (s_rho_s So); [|congruence]. destruct (s_eta_max So); [|congruence]. destruct (s_K So); [|congruence]. cbn [attr bind].
      match goal with |- context [if negb ?c then _ else _] => replace c with true by reflexivity end. cbn [negb].
      match goal with |- context [visualise P ?M ?f G] => destruct (V M f eq_refl) as [G' ->] end. cbn [bind]. eauto.
  - unfold linear_mu. cbv zeta. split.
    + intros [r E]. pbinds E.
      split; [apply mean_size_ok; eauto|].
      destruct (s_K So); [|discriminate]. destruct (s_eta_max So); [|discriminate].
      destruct (s_rho_s So); [|discriminate]. destruct (s_b So); [|discriminate].
      destruct (s_mu_0 So) as [[mu|l]|] eqn:EM; [| |discriminate].
      * repeat split; try discriminate. eexists; reflexivity.
      * match goal with X : attr (Some (Ar _)) = Ok ?a, Y : sc_scalar ?a = Ok _ |- _ => injection X as <-; discriminate Y end.
    + intros (A & B & C & D & F & (m & Hm)).
      destruct (proj2 (mean_size_ok P p) A) as [r1 ->]. rewrite Hm. destruct (s_K So); [|congruence]. destruct (s_eta_max So); [|congruence].
      destruct (s_rho_s So); [|congruence]. destruct (s_b So); [|congruence]. cbn [attr bind sc_scalar].
      match goal with |- context [visualise P ?M ?f G] => destruct (V M f eq_refl) as [G' ->] end. cbn [bind]. eauto.
  - unfold ken_simple. cbv zeta. split.
    + intros [r E]. pbinds E.
      split; [apply mean_size_ok; eauto|].
      destruct (s_K So); [|discriminate]. destruct (s_eta_max So); [|discriminate].
      destruct (s_mu_0 So) as [[mu|l]|] eqn:EM; [| |discriminate].
      * repeat split; try discriminate. eexists; reflexivity.
      * match goal with X : attr (Some (Ar _)) = Ok ?a, Y : sc_scalar ?a = Ok _ |- _ => injection X as <-; discriminate Y end.
    + intros (A & B & C & (m & Hm)).
      destruct (proj2 (mean_size_ok P p) A) as [r1 ->]. rewrite Hm. destruct (s_K So); [|congruence]. destruct (s_eta_max So); [|congruence]. cbn [attr bind sc_scalar].
      match goal with |- context [if negb ?c then _ else _] => replace c with true by reflexivity end. cbn [negb].
      match goal with |- context [visualise P ?M ?f G] => destruct (V M f eq_refl) as [G' ->] end. cbn [bind]. eauto.
Qed.
Lemma able_total P (S0 So : solid R) ip p G : reaches P p -> slens (nodes (pG P)) G -> able (pG P) S0 So p ->
  exists p' G', apply_law P S0 So ip p G = Ok (p', G').
Proof.
  intros HR HS [HE|HE]; [apply law_total; assumption|].
  assert (HL : In (s_law So) [Pouliquen; LinearMu; KenSimple]).
  { destruct HE as (_ & _ & _ & HE). cbn. destruct (s_law So); try contradiction; auto. }
  destruct (proj2 (p_C113_law P S0 So ip p G HR HS HL) HE) as [[p' G'] E]. eauto.
Qed.
Lemma stress_strain_able P L (G : grid R) S0 : proper (pG P) -> sol0 L = Ok S0 -> enough L ->
  all_live L (fun ph p => reaches P p /\ able (pG P) S0 (ph_sol ph) p) ->
  slens (nodes (pG P)) G -> length (gm G) = nodes (pG P) -> length (gq G) = nodes (pG P) ->
  exists L' G', stress_strain P L G = Ok (L', G').
Proof.
  intros HP H0 He HA HS Lm Lq. unfold stress_strain. rewrite H0. cbn [bind].
  destruct (points_total (stress_one P S0) (fun G1 => slens (nodes (pG P)) G1 /\ vis_frame G G1) L G) as (L' & G' & E & S1 & F1).
  - exact He.
  - split; [exact HS|apply vis_frame_refl].
  - intros k ph p G1 Hin Hp (S1 & F1). destruct (HA ph p Hin Hp) as [HR HE].
    destruct (strain_total P G1 p HP HR) as [p1 E1].
    { rewrite F1. exact Lm. } { rewrite F1. exact Lq. }
    destruct (able_total P S0 (ph_sol ph) k p1 G1) as (p2 & G2 & E2); [|exact S1| |].
    { rewrite (strain_frame _ _ _ _ E1). exact HR. } { rewrite (strain_frame _ _ _ _ E1). exact HE. }
    assert (X : exists p3, stress_one P S0 k ph p G1 = Ok (p3, G2)).
    { unfold stress_one, update_stress. rewrite E1. cbn [bind]. rewrite E2. cbn [bind]. eauto. }
    destruct X as [p3 X]. exists p3, G2. split; [exact X|]. apply stress_one_rel in X.
    destruct X as (_ & V & Sl & _). split; [auto|]. exact (vis_frame_trans _ _ _ F1 V).
  - change (exists L'0 G'0, bind (points (stress_one P S0) L G) (fun '(L, G) =>
      if cyclic_lr (pB P) then bind (cyc_fields P [Fpressure; Fgammadot; Fdev; Fyield; Fmu_s; Fmu; FI] G) (fun G => Ok (L, G))
      else Ok (L, G)) = Ok (L'0, G'0)).
    rewrite E. cbn [bind]. destruct (cyclic_lr (pB P)); [|eauto].
    destruct (cyc_fields_total P [Fpressure; Fgammadot; Fdev; Fyield; Fmu_s; Fmu; FI] G' HP S1) as (G2 & E2 & _).
    rewrite E2. cbn [bind]. eauto.
Qed.

Record ready_sift (s : state R) : Prop := {
  rs_proper : proper (pG (sP s));
  rs_grid : grid_ok (pG (sP s)) (sG s);
  rs_count : counted (sL s);
  rs_dom : all_live (sL s) (fun _ p => in_dom (pG (sP s)) (px p) /\ (p_check (sP s) = true -> vz (px p) = 0));
  rs_laws : exists S0, sol0 (sL s) = Ok S0 /\ all_live (sL s) (fun ph p => able (pG (sP s)) S0 (ph_sol ph) p);
  rs_rigid : forall ph, In ph (sL s) -> s_law (ph_sol ph) = Rigid -> has (p_intruder_v (sP s));
  rs_conv : conveyor (pB (sP s)) = true -> has (p_v0 (sP s));
  rs_aniso : p_aniso (sP s) = false \/ p_t (sP s) <> 0;
  rs_seg : sieved (sP s) (sL s);
  rs_inlets : inlet_right (pB (sP s)) = false /\ inlet_top (pB (sP s)) = false;
  rs_outlet : outlet_left (pB (sP s)) = true -> has (pdx (pG (sP s))) }.

(** What segregation does to a point. *)
Definition graded (p p' : particle R) : Prop := p' = p <| pphi := pphi p' |> <| ppk := ppk p' |> /\ length (pphi p') = length (pphi p).
Lemma graded_refl p : graded p p.
Proof. split; [destruct p|]; reflexivity. Qed.
Lemma graded_trans p p1 p2 : graded p p1 -> graded p1 p2 -> graded p p2.
Proof. unfold graded. intros [H1 L1] [H2 L2]. split; [rewrite H2, H1; destruct p; reflexivity|congruence]. Qed.
Lemma graded_located P p p' : graded p p' -> located P p -> located P p'.
Proof. unfold graded. intros [-> _]. auto. Qed.
Lemma Lrel_refl {T} (R1 : phase T -> particle T -> particle T -> Prop) L : (forall ph p, R1 ph p p) -> Lrel R1 L L.
Proof.
  intros H. unfold Lrel. induction L as [|ph L IH]; constructor; [|exact IH].
  split; [reflexivity|]. split; [reflexivity|]. split; [reflexivity|]. split; [|reflexivity].
  induction (live ph); constructor; auto.
Qed.
(** The nodal quantities that move points. *)
Definition same_nodes (G G' : grid R) : Prop := gm G' = gm G /\ gq G' = gq G /\ gqd G' = gqd G /\ gV G' = gV G.

Lemma map_phi_graded P (G : grid R) p p' : map_phi_to_mp P G p = Ok p' -> graded p p'.
Proof.
  intros E. unfold map_phi_to_mp in E. eapply (four_ind P (pnstar p) _ (fun _ q => graded p q)) in E; [exact E|apply graded_refl|].
  intros r q q' _ I X. cbv beta in X. pbinds X. match type of X with (if ?c then _ else _) = _ => destruct c end; [|injection X as <-; exact I].
  pbinds X. injection X as <-. destruct I as [I1 I2]. unfold graded in *. split; [rewrite I1; destruct p; reflexivity|].
  cbn [pphi set]. match goal with Y : row_add _ _ = Ok _ |- _ => unfold row_add in Y; destruct (Nat.eqb _ _) eqn:LE in Y; [|discriminate Y]; injection Y as <- end.
  apply Nat.eqb_eq in LE. rewrite zipw_length. rewrite map_length in LE |- *. lia.
Qed.
Lemma segregate_rel fill P L (G : grid R) L' G' : segregate fill P L G = Ok (L', G') -> Lrel (fun _ p p' => graded p p') L L' /\ same_nodes G G'.
Proof.
  unfold segregate. intros E. pbinds E. injection E as <- <-. split.
  - match goal with X : move_grainsize _ _ _ = Ok _ |- _ => unfold move_grainsize in X; pbinds X; rename X into M end.
    match goal with X : points_ _ L = Ok ?l |- _ => assert (R1 : Lrel (fun _ p p' => graded p p') L l) by
      (eapply points__rel; [|exact X]; intros k ph p p' _ _ Y; eapply map_phi_graded; exact Y) end.
    destruct (p_norm P); [|injection M as <-; exact R1].
    eapply Lrel_trans; [exact R1|eapply (points__rel _ (fun _ p p' => graded p p')); [|exact M]|].
    + intros k ph p p' _ _ Y. injection Y as <-. split; [destruct p; reflexivity|]. unfold normalise. cbn [pphi set]. rewrite !map_length. reflexivity.
    + cbv beta. intros ph ph' p p' p'' _ _ _ _. apply graded_trans.
  - match goal with X : calculate_phi_increment _ _ _ = Ok _ |- _ => unfold calculate_phi_increment in X; pbinds X; injection X as X end.
    match goal with X : cyc_fields _ _ _ = Ok _ |- _ => unfold cyc_fields in X; cbn [foldM] in X; pbinds X; injection X as X; rename X into CF end.
    match goal with X : (_ <- cyc _ _ _ ;; _) = Ok _ |- _ => pbinds X; injection X as X end.
    subst. repeat split.
Qed.
Lemma stress_strain_slens P L (G : grid R) L' G' : proper (pG P) -> stress_strain P L G = Ok (L', G') ->
  slens (nodes (pG P)) G -> slens (nodes (pG P)) G'.
Proof.
  intros HP E HS. unfold stress_strain in E. pbinds E.
  match goal with H : points _ _ _ = Ok (?l, ?g) |- _ => rename H into EQ; rename g into Ga end.
  apply (points_rel (stress_one P a) (fun G => slens (nodes (pG P)) G) (fun _ _ _ => True)) in EQ; [|exact HS|].
  - destruct EQ as [EQ _]. destruct (cyclic_lr (pB P)); [|injection E as <- <-; exact EQ].
    destruct (cyc_fields_total P [Fpressure; Fgammadot; Fdev; Fyield; Fmu_s; Fmu; FI] Ga HP EQ) as (G2 & E2 & S2 & _).
    rewrite E2 in E. cbn [bind] in E. injection E as <- <-. exact S2.
  - intros k ph p G2 p' G2' _ _ V X. split; [|exact I]. apply stress_one_rel in X. apply X. exact V.
Qed.

Lemma map_phi_total P (G : grid R) p : reaches P p -> length (gm G) = nodes (pG P) -> length (g_dphi G) = nodes (pG P) ->
  length (g_dpk G) = nodes (pG P) -> Forall (fun d => length d = ns (pG P)) (g_dphi G) -> length (pphi p) = ns (pG P) ->
  exists p', map_phi_to_mp P G p = Ok p' /\ length (pphi p') = ns (pG P).
Proof.
  intros HR L1 L2 L3 LR LP. unfold map_phi_to_mp. apply four_total; [exact LP|].
  intros r q Hr LQ. destruct (HR r Hr) as [k Hk].
  rewrite (py_get_some (gm G) _ k 0) by (rewrite L1; exact Hk). cbn [bind].
  match goal with |- context [if ?c then _ else _] => destruct c end; [|eauto].
  rewrite (py_get_some (g_dphi G) _ k []) by (rewrite L2; exact Hk). cbn [bind].
  assert (LK : length (nth k (g_dphi G) []) = ns (pG P)).
  { rewrite Forall_forall in LR. apply LR, nth_In. rewrite L2. eapply pyi_lt; exact Hk. }
  unfold row_add. rewrite map_length, LK, LQ, Nat.eqb_refl. cbn [bind].
  rewrite (py_get_some (g_dpk G) _ k 0) by (rewrite L3; exact Hk). cbn [bind]. eexists. split; [reflexivity|].
  cbn [pphi set]. rewrite zipw_length, map_length, LK, LQ. lia.
Qed.

Lemma segregate_total fill P L (G : grid R) : proper (pG P) -> p_seg P = true -> sieved P L -> (exists S0, sol0 L = Ok S0) ->
  enough L -> all_live L (fun _ p => reaches P p) -> length (gm G) = nodes (pG P) -> length (g_dpk G) = nodes (pG P) ->
  length (f_eta G) = nodes (pG P) -> exists r, segregate fill P L G = Ok r.
Proof.
  intros HP Hs HV [S0 H0] HE HR Lm Lk Le. destruct (HV Hs) as (V1 & V2 & V3 & V4 & V5 & V6 & V7). specialize (V5 S0 H0).
  unfold has in *. destruct (pdx (pG P)) as [dx|] eqn:Edx; [|contradiction]. destruct (pdy (pG P)) as [dy|] eqn:Edy; [|contradiction].
  destruct (p_c P) as [c|] eqn:Ec; [|contradiction]. destruct (p_l P) as [l|] eqn:El; [|contradiction].
  destruct (s_rho_s S0) as [rho|] eqn:Er; [|contradiction].
  unfold segregate. rewrite H0. cbn [bind]. rewrite Er. cbn [bind attr]. cbv zeta.
  assert (LU : gm (update_pk fill P rho G) = gm G /\ g_dpk (update_pk fill P rho G) = g_dpk G /\ f_eta (update_pk fill P rho G) = f_eta G) by (repeat split).
  destruct LU as (U1 & U2 & U3). revert U1 U2 U3. generalize (update_pk fill P rho G). intros G1 U1 U2 U3.
  unfold calculate_phi_increment, KT0, KT1, Diffusion, sizes. rewrite Edx, Edy, Ec, El. cbn [bind attr].
  rewrite (proj2 (Nat.leb_le _ _) V6). cbn [bind].
  assert (NX : (Nat.ltb (nx (pG P)) 2 || Nat.ltb (ny (pG P)) 2)%bool = false).
  { destruct HP as (A & B & _). rewrite (proj2 (Nat.ltb_ge _ _) A), (proj2 (Nat.ltb_ge _ _) B). reflexivity. }
  rewrite NX. cbn [bind].
  match goal with |- context [set g_dphi (fun _ => ?d) G1] => assert (D : length d = nodes (pG P) /\ Forall (fun row => length row = ns (pG P)) d) end.
  { split.
    - unfold add_rows. rewrite map_length, !zipw_length, !map_length, seq_length. lia.
    - unfold add_rows. apply Forall_forall. intros row HI. apply in_map_iff in HI. destruct HI as (row1 & <- & HI). rewrite map_length.
      apply In_nth with (d := []) in HI. destruct HI as (k & Hk & <-). rewrite !zipw_length, !map_length, !seq_length in Hk.
      rewrite (zipw_nth _ _ _ _ [] [] []) by (rewrite ?zipw_length, ?map_length, ?seq_length; lia).
      rewrite (zipw_nth _ _ _ _ [] [] []) by (rewrite ?zipw_length, ?map_length, ?seq_length; lia).
      rewrite !zipw_length.
      repeat match goal with |- context [nth k (map ?f (seq 0 ?n)) []] => rewrite (nth_indep (map f (seq 0 n)) [] (f 0%nat)) by (rewrite map_length, seq_length; lia); rewrite (map_nth f) end.
      rewrite !map_length, !seq_length. lia. }
  match goal with |- context [set g_dphi (fun _ => ?d) G1] => set (dd := d) in * end. clearbody dd. destruct D as [D1 D2].
  assert (M : exists L', move_grainsize P (G1 <| g_dphi := dd |>) L = Ok L').
  { unfold move_grainsize. destruct (points__total (fun _ _ p => map_phi_to_mp P (G1 <| g_dphi := dd |>) p) L HE) as [L1 E1].
    - intros k ph p A C. destruct (map_phi_total P (G1 <| g_dphi := dd |>) p) as (p' & E' & _); [exact (HR ph p A C)| | | | | |eauto]; cbn [gm g_dphi g_dpk set]; rewrite ?U1, ?U2; auto.
      exact (V7 ph p A C).
    - rewrite E1. cbn [bind]. destruct (p_norm P); [|eauto]. apply points__total; [|eauto].
      eapply Lrel_enough; [|exact HE]. eapply (points__rel _ (fun _ _ _ => True)); [|exact E1]. auto. }
  destruct M as [L' ->]. cbn [bind]. unfold cyc_fields. cbn [foldM sget]. cbn [f_eta set]. rewrite U3.
  destruct (cyc_total nadd (pG P) (f_eta G) 0 HP Le) as (l1 & -> & _). cbn [bind]. eauto.
Qed.

(** A step, with segregation or without, does not fail. *)
Lemma p_C58_step_sift : forall uf fill (s : state R), ready_sift s -> exists s', time_march uf fill s = Ok s'.
Proof.
  intros uf fill s [HP HG HC HD (S0 & HS0 & HL) HR HV HA Hs (HI1 & HI2) HO].
  set (P := sP s <| p_loads := uf (sP s) |>). set (Pg := pG (sP s)) in *.
  pose proof (counted_enough _ HC) as He.
  set (G0 := wipe (sP s) (sG s)).
  assert (OK0 : grid_ok Pg G0) by (apply wipe_ok; exact HG).
  (* gravity *)
  destruct (points__total (fun k _ p => Ok (increment_gravity P k p)) (sL s) He) as [L1 E1]; [eauto|].
  assert (R1 : Lrel (fun _ p p' => px p' = px p /\ pphi p' = pphi p) (sL s) L1).
  { eapply points__rel; [|exact E1]. intros k ph p p' _ _ X. injection X as <-. unfold increment_gravity.
    destruct (Nat.eqb k 0); split; reflexivity. }
  assert (D1 : all_live L1 (fun _ p => in_dom Pg (px p) /\ (p_check (sP s) = true -> vz (px p) = 0))).
  { eapply Lrel_all_live; [exact R1| |exact HD]. cbv beta. intros ph p ph' p' _ _ _ _ _ [X _]. rewrite X. auto. }
  assert (D1' : all_live L1 (fun _ p => in_dom (pG P) (px p))) by (intros ph p X Y; apply (D1 ph p X Y)).
  pose proof (Lrel_enough _ _ _ R1 He) as He1.
  (* location *)
  destruct (locate_total P G0 L1 HP OK0 He1 D1') as (L2 & L3 & E2 & E3).
  pose proof (locate_loops P G0 L1 L2 L3 HP OK0 D1' E2 E3) as R3.
  pose proof (Lrel_enough _ _ _ R3 He1) as He3.
  assert (Re3 : all_live L3 (fun _ p => reaches P p)).
  { eapply (Lrel_all_live _ _ _ _ _ R3); [|exact D1']. cbv beta. intros ? ? ? ? _ _ _ _ _ -> X.
    apply located_reaches; [exact HP|]. apply locate_located; exact X. }
  assert (EC : (if p_check P then check_positions P G0 L3 else Ok tt) = Ok tt).
  { destruct (p_check P) eqn:EK; [|reflexivity].
    refine (p_C03_check_never_fires P G0 L1 L2 L3 HP OK0 _ He1 E2 E3).
    intros ph p X Y. destruct (D1 ph p X Y) as [Z1 Z2]. split; [exact Z1|]. apply Z2. exact EK. }
  assert (PH3 : p_seg (sP s) = true -> all_live L3 (fun _ p => length (pphi p) = ns Pg)).
  { intros Q. destruct (Hs Q) as (_ & _ & _ & _ & _ & _ & HF). apply (Lrel_all_live _ _ _ (fun _ p => length (pphi p) = ns Pg) _ R3); [cbv beta; intros ? ? ? ? _ _ _ _ _ -> X; exact X|].
    apply (Lrel_all_live _ _ _ (fun _ p => length (pphi p) = ns Pg) _ R1); [|exact HF]. cbv beta. intros ? ? ? ? _ _ _ _ _ [_ ->] X. exact X. }
  (* mapping *)
  assert (PL : p2g_lens P G0) by apply (wipe_lens P (sG s)).
  destruct (p2g_all_total P L3 G0 PL) as [G1 E4].
  { apply (wipe_seg P (sG s)). } { exact He3. }
  { intros ph p X Y. split; [apply (Re3 ph p X Y)|]. intros Q. exact (PH3 Q ph p X Y). }
  destruct (p2g_all_mass P L3 G0 G1 PL E4) as (Lm & _).
  destruct (wipe_frame (sP s) (sG s)) as (WV & Wv & Wh & Wc).
  destruct (p2g_all_mom P L3 G0 G1 PL) as (Lq & _); [unfold G0; rewrite Wv; apply HG|unfold G0; rewrite Wh; apply HG|exact E4|].
  pose proof (p2g_all_frame P L3 G0 G1 PL E4) as F1.
  (* cyclic *)
  assert (E5 : exists G2, (if cyclic_lr (pB P) then cyc_mq P G1 else Ok G1) = Ok G2 /\ length (gm G2) = nodes Pg /\
     length (gq G2) = nodes Pg /\ G2 = G1 <| gm := gm G2 |> <| gq := gq G2 |>).
  { destruct (cyclic_lr (pB P)).
    - unfold cyc_mq. destruct (cyc_total nadd (pG P) (gm G1) 0 HP Lm) as (l1 & -> & X1). cbn [bind].
      destruct (cyc_total vadd (pG P) (gq G1) v0 HP Lq) as (l2 & -> & X2). cbn [bind]. eexists. split; [reflexivity|].
      split; [exact X1|]. split; [exact X2|]. destruct G1; reflexivity.
    - exists G1. split; [reflexivity|]. split; [exact Lm|]. split; [exact Lq|]. destruct G1; reflexivity. }
  destruct E5 as (G2 & E5 & Lm2 & Lq2 & F2).
  assert (SL2 : slens (nodes Pg) G2).
  { intros f. rewrite F2, F1. pose proof (wipe_slens (sP s) (sG s) f) as X. fold G0 in X. fold Pg in X.
    destruct f; exact X. }
  (* stress *)
  pose proof (Lrel_sol _ _ _ R1) as Q1. pose proof (Lrel_sol _ _ _ R3) as Q3.
  assert (Q : map ph_sol L3 = map ph_sol (sL s)) by congruence.
  assert (AB : all_live L3 (fun ph p => able (pG P) S0 (ph_sol ph) p)).
  { apply (Lrel_all_live _ _ _ (fun ph p => able (pG P) S0 (ph_sol ph) p) _ R3); [cbv beta; intros ph p ph' p' _ _ ES _ _ -> X; rewrite ES; exact X|].
    apply (Lrel_all_live _ _ _ (fun ph p => able (pG P) S0 (ph_sol ph) p) _ R1); [|exact HL]. cbv beta. intros ph p ph' p' _ _ ES _ _ [_ EF] X. rewrite ES.
    unfold able, grainy. rewrite EF. exact X. }
  destruct (stress_strain_able P L3 G2 S0 HP (sol0_map _ _ _ Q HS0) He3) as (L4 & G3 & E6); auto.
  { intros ph p X Y. split; [apply (Re3 ph p X Y)|exact (AB ph p X Y)]. }
  destruct (stress_strain_rel P L3 G2 L4 G3 E6) as [R4 F3].
  assert (Re4 : all_live L4 (fun _ p => reaches P p)).
  { eapply (Lrel_all_live _ _ _ _ _ R4); [|exact Re3]. cbv beta. intros ? ? ? ? _ _ _ _ _ (X & _). apply strained_reaches, X. }
  pose proof (Lrel_enough _ _ _ R4 He3) as He4.
  (* forces *)
  assert (FL : f_lens P G3).
  { unfold f_lens. rewrite F3. cbn. rewrite F2. cbn. rewrite F1. cbn. unfold G0. rewrite wipe_fi, wipe_fe, repeat_length. auto. }
  destruct (forces_total P L4 G3 HP He4 Re4 FL) as [G4 E7].
  destruct (forces_frame P L4 G3 G4 HP FL E7) as [F4 FL4].
  destruct (BCs_total P (s_rho S0) G4 HA) as [G5 E8]. pose proof (BCs_frame _ _ _ _ E8) as F5.
  destruct (um_total P G5 HV) as [G6 E9].
  assert (SZ5 : sized (pG P) G5).
  { eapply BCs_sized; [|exact E8]. unfold sized. change (nx (pG P) * ny (pG P))%nat with (nodes Pg).
    rewrite (proj1 FL4), (proj2 FL4). rewrite F4. cbn [bv bh bconv gm gq gext set]. rewrite F3. cbn [bv bh bconv gm gq gext set].
    rewrite F2. cbn [bv bh bconv gm gq gext set]. rewrite F1. cbn [bv bh bconv gm gq gext set].
    rewrite Lm2, Lq2. unfold G0. rewrite Wv, Wh, Wc.
    rewrite (go_bv _ _ HG), (go_bh _ _ HG), (go_bconv _ _ HG). unfold wipe. destruct (p_seg (sP s)); cbn [gext set];
    rewrite repeat_length; do 7 (split; [reflexivity|]); reflexivity. }
  assert (MS : length (gm G6) = nodes Pg /\ length (gq G6) = nodes Pg /\ length (gqd G6) = nodes Pg /\ length (gV G6) = nodes Pg).
  { destruct (um_shape P G5 G6 E9) as [F6 _].
    split; [rewrite F6; apply SZ5|]. split; [apply (um_q_len P G5 G6 SZ5 E9)|].
    split; [rewrite (um_qd P G5 G6 E9); apply (rates_len P G5 SZ5)|].
    rewrite F6. cbn [gV set]. rewrite F5. cbn [gV set]. rewrite F4. cbn [gV set]. rewrite F3. cbn [gV set].
    rewrite F2. cbn [gV set]. rewrite F1. cbn [gV set]. unfold G0. rewrite WV. apply HG. }
  destruct MS as (M1 & M2 & M3 & M4).
  set (G7 := calculate_gammadot fill P G6).
  pose proof (Lrel_sol _ _ _ R4) as Q4.
  assert (SG : exists L4s G8, (if p_seg P then segregate fill P L4 G7 else Ok (L4, G7)) = Ok (L4s, G8) /\
    Lrel (fun _ p p' => graded p p') L4 L4s /\ same_nodes G7 G8).
  { destruct (p_seg P) eqn:EQ; [|exists L4, G7; split; [reflexivity|]; split; [apply Lrel_refl; intros; apply graded_refl|repeat split]].
    destruct (segregate_total fill P L4 G7 HP EQ) as [[L4s G8] E].
    - intros _. destruct (Hs EQ) as (X1 & X2 & X3 & X4 & X5 & X6 & X7). repeat (split; [assumption|]). split.
      + intros S1 H1. apply X5. rewrite <- H1. rewrite HS0. symmetry. apply (sol0_map (sL s) L4); [congruence|exact HS0].
      + split; [exact X6|]. eapply (Lrel_all_live _ _ _ _ _ R4); [|exact (PH3 EQ)]. cbv beta. intros ? ? ? ? _ _ _ _ _ (X & _) Y.
        unfold strained, law_frame in X. rewrite X. exact Y.
    - exists S0. apply (sol0_map (sL s) L4); [congruence|exact HS0].
    - exact He4.
    - exact Re4.
    - exact M1.
    - change (length (g_dpk G6) = nodes Pg). destruct (um_shape P G5 G6 E9) as [F6 _]. rewrite F6. cbn [g_dpk set]. rewrite F5. cbn [g_dpk set].
      rewrite F4. cbn [g_dpk set]. rewrite F3. cbn [g_dpk set]. rewrite F2. cbn [g_dpk set]. rewrite F1. cbn [g_dpk set]. unfold G0, wipe.
      destruct (p_seg (sP s)); apply repeat_length.
    - change (length (f_eta G6) = nodes Pg). destruct (um_shape P G5 G6 E9) as [F6 _]. rewrite F6. cbn [f_eta set]. rewrite F5. cbn [f_eta set].
      rewrite F4. cbn [f_eta set]. exact (stress_strain_slens P L3 G2 L4 G3 HP E6 SL2 Feta).
    - exists L4s, G8. split; [exact E|]. exact (segregate_rel fill P L4 G7 L4s G8 E). }
  destruct SG as (L4s & G8 & ESG & GD & SN1 & SN2 & SN3 & SN4).
  pose proof (Lrel_sol _ _ _ GD) as Q4s. pose proof (Lrel_enough _ _ _ GD He4) as He4s.
  assert (Re4s : all_live L4s (fun _ p => reaches P p)).
  { eapply (Lrel_all_live _ _ _ _ _ GD); [|exact Re4]. cbv beta. intros ? ? ? ? _ _ _ _ _ X Y. destruct X as [X _]. rewrite X. exact Y. }
  destruct (move_all_total P G8 L4s He4s Re4s) as [L5 E10].
  { apply (sol_in (sL s) L4s (fun So => s_law So = Rigid -> has (p_intruder_v P))); [congruence|]. exact HR. }
  { rewrite SN1. exact M1. } { rewrite SN2. exact M2. } { rewrite SN3. exact M3. } { rewrite SN4. exact M4. }
  assert (C5 : counted L5).
  { eapply move_all_counted; [exact E10|]. eapply Lrel_counted; [exact GD|]. eapply Lrel_counted; [exact R4|]. eapply Lrel_counted; [exact R3|].
    eapply Lrel_counted; [exact R1|exact HC]. }
  destruct (inout_total P L5 C5 HI1 HI2 HO) as [L6 E11].
  exists (mkState P G8 L6). unfold time_march. rewrite HS0. cbn [bind]. fold P. fold G0. unfold update_forces.
  rewrite E1. cbn [bind]. rewrite E2. cbn [bind]. rewrite E3. cbn [bind]. rewrite EC. cbn [bind].
  rewrite E4. cbn [bind]. rewrite E5. cbn [bind]. rewrite E6. cbn [bind]. rewrite E7. cbn [bind].
  rewrite E8. cbn [bind]. rewrite E9. cbn [bind]. fold G7. rewrite ESG. cbn [bind]. rewrite E10. cbn [bind]. rewrite E11. reflexivity.
Qed.

Lemma p_C58_pass_sift : forall uf fill (s : state R) tr, ready_sift s -> p_dynamic (sP s) = false ->
  p_tf (sP s) <> 0 -> p_savetime (sP s) <> 0 -> exists r, pass uf fill s tr = Ok r.
Proof.
  intros uf fill s tr HR Hd Ht Hv. destruct (p_C58_step_sift uf fill s HR) as [s1 E].
  pose proof (step_params _ _ _ _ E) as EP.
  unfold pass. rewrite E. cbn [bind]. cbv zeta.
  assert (E0 : (p_tf (sP s1) =? n0)%num = false).
  { rewrite EP. change (Reqb (p_tf (sP s)) 0 = false). unfold Reqb. destruct (Req_EM_T _ _); [contradiction|reflexivity]. }
  rewrite E0.
  assert (E1 : exists b, save_due (sP s1) = Ok b).
  { unfold save_due. rewrite EP. change (p_savetime (sP s <| p_loads := uf (sP s) |>)) with (p_savetime (sP s)).
    unfold nmod, Num_R. unfold Rmod. destruct (Req_EM_T (p_savetime (sP s)) 0); [contradiction|]. cbn [bind]. eauto. }
  destruct E1 as [b ->]. cbn [bind].
  assert (E2 : p_dynamic (sP s1) = false) by (rewrite EP; exact Hd).
  match goal with |- context [if ?c then dynamic_dt _ _ _ else _] => replace c with false by (symmetry; exact E2) end.
  cbn [bind]. eauto.
Qed.

(** Two sizes in a moving, stressed body in a box under gravity. *)
Example x_C58_pass_sift : forall uf fill, exists (s : state R), ready_sift s /\ p_seg (sP s) = true /\ p_dynamic (sP s) = false /\
  p_tf (sP s) <> 0 /\ p_savetime (sP s) <> 0 /\ (exists s', time_march uf fill s = Ok s') /\ exists r, pass uf fill s [] = Ok r.
Proof.
  intros uf fill. destruct (grid_init_ok ex_gridp ex_box ex_proper) as (G & EG & OK).
  set (s := start (ex_params ex_box <| p_seg := true |> <| p_c := Some 1 |> <| p_l := Some 1 |>) G Elastic).
  assert (HR : ready_sift s).
  { destruct (ex_ready ex_box G EG OK eq_refl eq_refl eq_refl Elastic (or_introl eq_refl)) as [? ? ? ? (S1 & X1 & X2)]. constructor; try assumption.
    { exists S1. split; [exact X1|]. intros ph p A _. left. exact (X2 ph A). }
    intros _. split; [discriminate|]. split; [discriminate|]. split; [discriminate|]. split; [discriminate|].
    split; [intros S0 X; injection X as <-; discriminate|]. split; [cbn; lia|].
    intros ph p [<-|[]] HI. cbn in HI. repeat (destruct HI as [<-|HI]; [reflexivity|]). destruct HI. }
  assert (T1 : p_tf (sP s) <> 0) by (cbn; unR; lra). assert (T2 : p_savetime (sP s) <> 0) by (cbn; unfold lit; unR; lra).
  exists s. split; [exact HR|]. split; [reflexivity|]. split; [reflexivity|]. split; [exact T1|]. split; [exact T2|].
  split; [exact (p_C58_step_sift uf fill s HR)|exact (p_C58_pass_sift uf fill s [] HR eq_refl T1 T2)].
Qed.
