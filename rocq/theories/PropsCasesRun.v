(** * Cases that meet the hypotheses: the scheme, runs and input scripts
    Statements only; the proofs are in ThmCasesRun.v. *)
From Coq Require Import ZArith QArith Reals List Bool Arith Lra Lia String.
From RecordUpdate Require Import RecordUpdate.
From Verif Require Import State NumR NumQ Spec SpecLaws SpecStep SpecScheme SpecRing SpecLocal SpecHoop SpecPace LibList LibR ModelGrid ModelInputs ModelConstit ModelParticle ModelMPList
  ModelIntegr ModelMain ModelPlot ProofsGrid ProofsMap ProofsP2G ProofsWalls ProofsLaws ProofsInOut ProofsHist Concrete
  ThmMapping ThmWalls ThmLaws ThmInOut ThmHist ProofsStep ProofsPoints ThmStep ThmBalance ThmEnergy ThmFall ThmGeo ProofsScheme ThmScheme ThmFill ThmRest ThmLoads
  ThmRing ProofsLocal ThmLocal ThmLoop ThmSift ThmGrade ThmHoop ThmPace ThmSieve ThmShown ThmShift ThmBox ThmFlow ThmAffine ThmPlot.
Import ListNotations.
Local Close Scope string_scope.
Local Close Scope Q_scope.
From Verif Require Import ThmCasesRun.
Local Open Scope R_scope.

(** Five materials in a box with a belt and a load on the surface. *)
Example C102_run_example : forall fill, exists (s s' : state R) tr' S0, whole s /\ sol0 (sL s) = Ok S0 /\
  (forall j, (j < 1)%nat -> Forall (fun q => in_dom (pG (sP s)) (z_x q)) (z_run mix_loads (s_rho S0) j (sP s) (sG s) (cloud (sP s) (sL s)))) /\
  after mix_loads fill 1 s [] = Ok (s', tr') /\ List.length (cloud (sP s) (sL s)) = 5%nat.
Proof. exact x_C102_run. Qed.

Example C102_step_example : forall fill, exists (s s' : state R) S0, proper (pG (sP s)) /\ grid_ok (pG (sP s)) (sG s) /\
  all_live (sL s) (fun _ p => in_dom (pG (sP s)) (px p)) /\ sealed (sP s) /\ no_rub (pB (sP s)) /\
  covered (sL s) /\ own_velocities (sL s) /\ 0 < p_dt (sP s) /\ 0 <= p_Mtol (sP s) /\ sol0 (sL s) = Ok S0 /\
  time_march mix_loads fill s = Ok s' /\ List.length (cloud (sP s) (sL s)) = 5%nat.
Proof. exact x_C102_step. Qed.

(** The same on a cylinder. *)
Example C107_run_example : forall fill, exists (s s' : state R) tr' S0, hoop s /\ sol0 (sL s) = Ok S0 /\
  (forall j, (j < 1)%nat -> Forall (fun q => in_dom (pG (sP s)) (z_x q)) (o_run mix_loads (s_rho S0) j (sP s) (sG s) (cloud (sP s) (sL s)))) /\
  after mix_loads fill 1 s [] = Ok (s', tr') /\ List.length (cloud (sP s) (sL s)) = 5%nat.
Proof. exact x_C107_run. Qed.

Example C107_step_example : forall fill, exists (s s' : state R) S0, proper (pG (sP s)) /\ grid_ok (pG (sP s)) (sG s) /\
  all_live (sL s) (fun _ p => in_dom (pG (sP s)) (px p)) /\ looped (sP s) /\ ends_join (pG (sP s)) (sG s) /\ no_rub (pB (sP s)) /\
  covered (sL s) /\ own_velocities (sL s) /\ 0 < p_dt (sP s) /\ 0 <= p_Mtol (sP s) /\ sol0 (sL s) = Ok S0 /\
  time_march mix_loads fill s = Ok s' /\ List.length (cloud (sP s) (sL s)) = 5%nat.
Proof. exact x_C107_step. Qed.

Example C107_ends_example : exists G, proper (@ex_gridp R _) /\ grid_init (@ex_gridp R _) ring_bounds = Ok G /\ ThmWalls.plain ring_bounds /\
  has_left ring_bounds = has_right ring_bounds /\ cyclic_lr ring_bounds = true /\ nth 0 (bh G) false = true.
Proof. exact x_C107_ends. Qed.

(** Steps of adaptive length. *)
Example C109_run_example : forall fill, exists (s s' : state R) tr' S0, paced s /\ sol0 (sL s) = Ok S0 /\
  (forall j, (j < 1)%nat -> let (P, B) := y_run still_loads (s_rho S0) (crits (sL s)) j (sP s) (sG s) (cloud (sP s) (sL s)) in
     Forall (fun q => in_dom (pG (sP s)) (z_x q)) B /\ 0 < y_fast (ambient_of P (s_rho S0) (still_loads P) (sG s)) B) /\
  after still_loads fill 1 s [] = Ok (s', tr') /\ p_dt (sP s) = 1 / 10 /\ p_dt (sP s') = 1 / 20.
Proof. exact x_C109_run. Qed.

Example C109_pass_example : forall fill, exists (s s' : state R) tr' S0, paced s /\ all_live (sL s) (fun _ p => in_dom (pG (sP s)) (px p)) /\
  sol0 (sL s) = Ok S0 /\ pass still_loads fill s [] = Ok (s', tr') /\ p_dt (sP s) = 1 / 10 /\ p_dt (sP s') = 1 / 20.
Proof. exact x_C109_pass. Qed.

(** Five materials that segregate. *)
Example C110_run_example : forall fill, exists (s s' : state R) tr' S0, sifted s /\ p_seg (sP s) = true /\ sol0 (sL s) = Ok S0 /\
  (forall j, (j < 1)%nat -> Forall (fun q => in_dom (pG (sP s)) (z_x q)) (z_run mix_loads (s_rho S0) j (sP s) (sG s) (cloud (sP s) (sL s)))) /\
  after mix_loads fill 1 s [] = Ok (s', tr') /\ List.length (cloud (sP s) (sL s)) = 5%nat.
Proof. exact x_C110_run. Qed.

Example C110_step_example : forall fill, exists (s s' : state R) S0, proper (pG (sP s)) /\ grid_ok (pG (sP s)) (sG s) /\
  all_live (sL s) (fun _ p => in_dom (pG (sP s)) (px p)) /\ tight (sP s) /\ no_rub (pB (sP s)) /\
  covered (sL s) /\ own_velocities (sL s) /\ 0 < p_dt (sP s) /\ 0 <= p_Mtol (sP s) /\ sol0 (sL s) = Ok S0 /\
  time_march mix_loads fill s = Ok s' /\ p_seg (sP s) = true /\ List.length (cloud (sP s) (sL s)) = 5%nat.
Proof. exact x_C110_step. Qed.

Example C110_same_example : forall fill, exists (s s1 s2 : state R) tr1 tr2 S0, sifted s /\ p_seg (sP s) = true /\ sol0 (sL s) = Ok S0 /\
  (forall P, mix_loads (with_seg false P) = mix_loads P) /\
  (forall j, (j < 1)%nat -> Forall (fun q => in_dom (pG (sP s)) (z_x q)) (z_run mix_loads (s_rho S0) j (sP s) (sG s) (cloud (sP s) (sL s)))) /\
  after mix_loads fill 1 s [] = Ok (s1, tr1) /\ after mix_loads fill 1 (s <| sP := with_seg false (sP s) |>) [] = Ok (s2, tr2).
Proof. exact x_C110_same. Qed.

Example C111_balance_example : forall uf fill, exists (s s' : state R), proper (pG (sP s)) /\ grid_ok (pG (sP s)) (sG s) /\
  all_live (sL s) (fun _ p => in_dom (pG (sP s)) (px p)) /\ tight (sP s) /\ lasting (sL s) /\
  p_seg (sP s) = true /\ p_norm (sP s) = false /\ time_march uf fill s = Ok s' /\ class_mass 0 (sL s) = 3/2.
Proof. exact x_C111_balance. Qed.

Example C108_rate_example : forall l, In l [Elastic; ElasticTime; VonMises; KenKamrin] ->
  exists P S (p p' : particle R) (G G' : grid R), s_law S = l /\ apply_law P S S 0 p G = Ok (p', G') /\ 0 < p_dt P /\ 0 < frob (deviator (pdstrain p)).
Proof. exact x_C108_rate. Qed.
