(** * Cases that meet the hypotheses: the scheme, runs and input scripts *)
From Coq Require Import ZArith QArith Reals List Bool Arith Lra Lia String.
From RecordUpdate Require Import RecordUpdate.
From Verif Require Import State NumR NumQ Spec SpecLaws SpecStep SpecScheme SpecRing SpecLocal SpecHoop SpecPace LibList LibR ModelGrid ModelInputs ModelConstit ModelParticle ModelMPList
  ModelIntegr ModelMain ModelPlot ProofsGrid ProofsMap ProofsP2G ProofsWalls ProofsLaws ProofsInOut ProofsHist Concrete
  ThmMapping ThmWalls ThmLaws ThmInOut ThmHist ProofsStep ProofsPoints ThmStep ThmBalance ThmEnergy ThmFall ThmGeo ProofsScheme ThmScheme ThmFill ThmRest ThmLoads
  ThmRing ProofsLocal ThmLocal ThmLoop ThmSift ThmGrade ThmHoop ThmPace ThmSieve ThmShown ThmShift ThmBox ThmFlow ThmAffine ThmPlot.
Import ListNotations.
Local Close Scope string_scope.
Local Close Scope Q_scope.
Local Open Scope R_scope.
Local Existing Instance Num_R.

Lemma first_step uf fill (s s' : state R) tr tr' : after uf fill 1 s tr = Ok (s', tr') -> exists s1, time_march uf fill s = Ok s1.
Proof.
  cbn [after]. destruct (pass uf fill s tr) as [[s2 t2]|] eqn:E; [|discriminate]. intros _.
  destruct (pass_inv uf fill _ _ _ _ E) as (s3 & dt & E3 & _). eauto.
Qed.
Lemma both_domain P (B : list point) : Forall (fun q => in_dom (pG P) (z_x q) /\ (p_check P = true -> vz (z_x q) = 0)) B ->
  Forall (fun q => in_dom (pG P) (z_x q)) B.
Proof. intros H. eapply Forall_impl; [|exact H]. intros q [A _]. exact A. Qed.
Lemma cloud_domain P (L : list (phase R)) : Forall (fun q => in_dom (pG P) (z_x q)) (cloud P L) -> all_live L (fun _ p => in_dom (pG P) (px p)).
Proof. intros H. apply (cloud_live P L (fun x => in_dom (pG P) x) 0 H). Qed.

(** Five materials in a box with a belt and a load on the surface. *)
Example x_C102_run : forall fill, exists (s s' : state R) tr' S0, whole s /\ sol0 (sL s) = Ok S0 /\
  (forall j, (j < 1)%nat -> Forall (fun q => in_dom (pG (sP s)) (z_x q)) (z_run mix_loads (s_rho S0) j (sP s) (sG s) (cloud (sP s) (sL s)))) /\
  after mix_loads fill 1 s [] = Ok (s', tr') /\ List.length (cloud (sP s) (sL s)) = 5%nat.
Proof.
  intros fill. destruct (x_C102_total fill) as (s & S0 & W & _ & H0 & HI & _ & _ & Ln & s' & tr' & E & _). exists s, s', tr', S0.
  split; [exact W|]. split; [exact H0|]. split; [|split; [exact E|exact Ln]]. intros j Hj. apply both_domain, HI, Hj.
Qed.
Example x_C102_step : forall fill, exists (s s' : state R) S0, proper (pG (sP s)) /\ grid_ok (pG (sP s)) (sG s) /\
  all_live (sL s) (fun _ p => in_dom (pG (sP s)) (px p)) /\ sealed (sP s) /\ no_rub (pB (sP s)) /\
  covered (sL s) /\ own_velocities (sL s) /\ 0 < p_dt (sP s) /\ 0 <= p_Mtol (sP s) /\ sol0 (sL s) = Ok S0 /\
  time_march mix_loads fill s = Ok s' /\ List.length (cloud (sP s) (sL s)) = 5%nat.
Proof.
  intros fill. destruct (x_C102_run fill) as (s & s' & tr' & S0 & [] & H0 & HI & E & Ln). destruct (first_step _ _ _ _ _ _ E) as [s1 E1].
  exists s, s1, S0. pose proof (cloud_domain _ _ (HI 0%nat Nat.lt_0_1)). repeat (split; [assumption|]). assumption.
Qed.
(** The same on a cylinder. *)
Example x_C107_run : forall fill, exists (s s' : state R) tr' S0, hoop s /\ sol0 (sL s) = Ok S0 /\
  (forall j, (j < 1)%nat -> Forall (fun q => in_dom (pG (sP s)) (z_x q)) (o_run mix_loads (s_rho S0) j (sP s) (sG s) (cloud (sP s) (sL s)))) /\
  after mix_loads fill 1 s [] = Ok (s', tr') /\ List.length (cloud (sP s) (sL s)) = 5%nat.
Proof.
  intros fill. destruct (x_C107_total fill) as (s & S0 & W & _ & H0 & HI & _ & _ & Ln & s' & tr' & E & _). exists s, s', tr', S0.
  split; [exact W|]. split; [exact H0|]. split; [|split; [exact E|exact Ln]]. intros j Hj. apply both_domain, HI, Hj.
Qed.
Example x_C107_step : forall fill, exists (s s' : state R) S0, proper (pG (sP s)) /\ grid_ok (pG (sP s)) (sG s) /\
  all_live (sL s) (fun _ p => in_dom (pG (sP s)) (px p)) /\ looped (sP s) /\ ends_join (pG (sP s)) (sG s) /\ no_rub (pB (sP s)) /\
  covered (sL s) /\ own_velocities (sL s) /\ 0 < p_dt (sP s) /\ 0 <= p_Mtol (sP s) /\ sol0 (sL s) = Ok S0 /\
  time_march mix_loads fill s = Ok s' /\ List.length (cloud (sP s) (sL s)) = 5%nat.
Proof.
  intros fill. destruct (x_C107_run fill) as (s & s' & tr' & S0 & [] & H0 & HI & E & Ln). destruct (first_step _ _ _ _ _ _ E) as [s1 E1].
  exists s, s1, S0. pose proof (cloud_domain _ _ (HI 0%nat Nat.lt_0_1)). repeat (split; [assumption|]). assumption.
Qed.
Example x_C107_ends : exists G, proper (@ex_gridp R _) /\ grid_init (@ex_gridp R _) ring_bounds = Ok G /\ ThmWalls.plain ring_bounds /\
  has_left ring_bounds = has_right ring_bounds /\ cyclic_lr ring_bounds = true /\ nth 0 (bh G) false = true.
Proof. destruct x_C91_ends as (G & A). exists G. split; [exact ex_proper|exact A]. Qed.
(** Steps of adaptive length. *)
Example x_C109_run : forall fill, exists (s s' : state R) tr' S0, paced s /\ sol0 (sL s) = Ok S0 /\
  (forall j, (j < 1)%nat -> let (P, B) := y_run still_loads (s_rho S0) (crits (sL s)) j (sP s) (sG s) (cloud (sP s) (sL s)) in
     Forall (fun q => in_dom (pG (sP s)) (z_x q)) B /\ 0 < y_fast (ambient_of P (s_rho S0) (still_loads P) (sG s)) B) /\
  after still_loads fill 1 s [] = Ok (s', tr') /\ p_dt (sP s) = 1 / 10 /\ p_dt (sP s') = 1 / 20.
Proof.
  intros fill. destruct (x_C109_total fill) as (s & S0 & W & _ & H0 & HI & D & s' & tr' & E & D'). exists s, s', tr', S0.
  split; [exact W|]. split; [exact H0|]. split; [|auto]. intros j Hj. specialize (HI j Hj).
  destruct (y_run _ _ _ _ _ _ _) as [P B]. destruct HI as [H1 H2]. split; [apply both_domain, H1|exact H2].
Qed.
Example x_C109_pass : forall fill, exists (s s' : state R) tr' S0, paced s /\ all_live (sL s) (fun _ p => in_dom (pG (sP s)) (px p)) /\
  sol0 (sL s) = Ok S0 /\ pass still_loads fill s [] = Ok (s', tr') /\ p_dt (sP s) = 1 / 10 /\ p_dt (sP s') = 1 / 20.
Proof.
  intros fill. destruct (x_C109_run fill) as (s & s' & tr' & S0 & W & H0 & HI & E & D & D'). exists s, s', tr', S0.
  specialize (HI 0%nat Nat.lt_0_1). cbn [y_run] in HI. split; [exact W|]. split; [apply cloud_domain, HI|]. split; [exact H0|].
  cbn [after] in E. destruct (pass still_loads fill s []) as [[s2 t2]|]; [|discriminate]. injection E as <- <-. auto.
Qed.
(** Five materials that segregate. *)
Example x_C110_run : forall fill, exists (s s' : state R) tr' S0, sifted s /\ p_seg (sP s) = true /\ sol0 (sL s) = Ok S0 /\
  (forall j, (j < 1)%nat -> Forall (fun q => in_dom (pG (sP s)) (z_x q)) (z_run mix_loads (s_rho S0) j (sP s) (sG s) (cloud (sP s) (sL s)))) /\
  after mix_loads fill 1 s [] = Ok (s', tr') /\ List.length (cloud (sP s) (sL s)) = 5%nat.
Proof.
  intros fill. destruct (x_C110_total fill) as (s & S0 & W & _ & _ & SG & H0 & HI & _ & Ln & s' & tr' & E & _). exists s, s', tr', S0.
  split; [exact W|]. split; [exact SG|]. split; [exact H0|]. split; [|split; [exact E|exact Ln]]. intros j Hj. apply both_domain, HI, Hj.
Qed.
Example x_C110_step : forall fill, exists (s s' : state R) S0, proper (pG (sP s)) /\ grid_ok (pG (sP s)) (sG s) /\
  all_live (sL s) (fun _ p => in_dom (pG (sP s)) (px p)) /\ tight (sP s) /\ no_rub (pB (sP s)) /\
  covered (sL s) /\ own_velocities (sL s) /\ 0 < p_dt (sP s) /\ 0 <= p_Mtol (sP s) /\ sol0 (sL s) = Ok S0 /\
  time_march mix_loads fill s = Ok s' /\ p_seg (sP s) = true /\ List.length (cloud (sP s) (sL s)) = 5%nat.
Proof.
  intros fill. destruct (x_C110_run fill) as (s & s' & tr' & S0 & [] & SG & H0 & HI & E & Ln). destruct (first_step _ _ _ _ _ _ E) as [s1 E1].
  exists s, s1, S0. pose proof (cloud_domain _ _ (HI 0%nat Nat.lt_0_1)). repeat (split; [assumption|]). assumption.
Qed.
Example x_C110_same : forall fill, exists (s s1 s2 : state R) tr1 tr2 S0, sifted s /\ p_seg (sP s) = true /\ sol0 (sL s) = Ok S0 /\
  (forall P, mix_loads (with_seg false P) = mix_loads P) /\
  (forall j, (j < 1)%nat -> Forall (fun q => in_dom (pG (sP s)) (z_x q)) (z_run mix_loads (s_rho S0) j (sP s) (sG s) (cloud (sP s) (sL s)))) /\
  after mix_loads fill 1 s [] = Ok (s1, tr1) /\ after mix_loads fill 1 (s <| sP := with_seg false (sP s) |>) [] = Ok (s2, tr2).
Proof.
  intros fill. destruct (x_C110_total fill) as (s & S0 & W & V & Q & SG & H0 & HI & HB & Ln & s' & tr' & E & _).
  assert (X : exists s2 tr2, after mix_loads fill 1 (s <| sP := with_seg false (sP s) |>) [] = Ok (s2, tr2) /\ True).
  { edestruct (p_C110_total mix_loads fill 1 (s <| sP := with_seg false (sP s) |>) [] S0) as (s2 & tr2 & E2 & _); [| | |exact H0| |eauto].
    - destruct W as [W1 W2 W3 W4 W5 W6 W7 W8 W9 W10]. constructor; try assumption.
    - destruct V as [V1 V2 V3 V4 V5 V6 V7]. constructor; assumption.
    - intros A. discriminate A.
    - intros j Hj. assert (j = 0)%nat by lia. subst j. pose proof (HI 0%nat Hj) as K. cbn [z_run] in *.
      replace (cloud (sP (s <| sP := with_seg false (sP s) |>)) (sL (s <| sP := with_seg false (sP s) |>))) with (cloud (sP s) (sL s)) by (symmetry; apply cloud_pG; reflexivity).
      exact K. }
  destruct X as (s2 & tr2 & E2 & _). exists s, s', s2, tr', tr2, S0. split; [exact W|]. split; [exact SG|]. split; [exact H0|].
  split; [intros P; apply HB|]. split; [intros j Hj; apply both_domain, HI, Hj|]. split; [exact E|exact E2].
Qed.
Example x_C111_balance : forall uf fill, exists (s s' : state R), proper (pG (sP s)) /\ grid_ok (pG (sP s)) (sG s) /\
  all_live (sL s) (fun _ p => in_dom (pG (sP s)) (px p)) /\ tight (sP s) /\ lasting (sL s) /\
  p_seg (sP s) = true /\ p_norm (sP s) = false /\ time_march uf fill s = Ok s' /\ class_mass 0 (sL s) = 3/2.
Proof. intros uf fill. destruct (x_C111_even uf fill) as (s & s' & A). exists s, s'. tauto. Qed.
Example x_C108_rate : forall l, In l [Elastic; ElasticTime; VonMises; KenKamrin] ->
  exists P S (p p' : particle R) (G G' : grid R), s_law S = l /\ apply_law P S S 0 p G = Ok (p', G') /\ 0 < p_dt P /\ 0 < frob (deviator (pdstrain p)).
Proof.
  intros l Hl. destruct (grid_init_ok (ex_gridp (T := R)) ex_bounds ex_proper) as (G0 & _ & HG0).
  destruct (run_law l 0 ltac:(cbn in *; tauto) ex_p_loc G0 ex_p_located eq_refl) as (p' & G' & E).
  eexists _, _, _, p', _, G'. split; [|split; [exact E|]]; [reflexivity|]. split; [cbn; unR; lra|].
  unfold frob. apply sqrt_lt_R0. unfold inner, deviator, tr3. cbn. lra.
Qed.
