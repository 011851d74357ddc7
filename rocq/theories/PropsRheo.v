(** * Friction in the granular laws: C77 to C79.
    Statements only; the proofs are in ThmRheo.v. *)
From Coq Require Import ZArith Reals List Bool Arith Lra Lia.
From Verif Require Import State NumR NumX Spec SpecLaws LibList LibR ModelGrid ModelConstit ModelParticle ModelMPList ModelMain
  ProofsGrid ProofsMap ProofsP2G ProofsLaws ProofsHist ProofsX ProofsStep ProofsPoints Concrete ThmMapping ThmLaws ThmLawsX ThmStep ThmFields.
Import ListNotations.
From Verif Require Import ThmRheo.
Local Open Scope R_scope.

(** C77.  The shear stress that the two mu(I) laws set lies along the shear of the increment, and its size is the smaller of
    the friction coefficient times the pressure from before the increment and the cap from [eta_max]. *)
Theorem C77_friction : forall P S0 S ip (p p' : particle R) (G G' : grid R) emax, s_law S = Pouliquen \/ s_law S = LinearMu ->
  apply_law P S0 S ip p G = Ok (p', G') -> 0 < p_dt P -> s_eta_max S = Some emax -> 0 <= emax ->
  0 < frob (deviator (pdstrain p)) ->
  exists mu c, pmu p' = Some mu /\ pdev p' = times c (deviator (pdstrain p)) /\
    (0 <= mu -> 0 <= c /\
      frob (pdev p') / sqrt 2 = Rmin (mu * Rabs (ppressure p)) (emax * frob (deviator (pdstrain p)) / (sqrt 2 * p_dt P))) /\
    plus3 (pstress p) (pdstress p') = plus3 (iso (ppressure p')) (pdev p').
Proof. exact p_C77_friction. Qed.
Print Assumptions C77_friction.

(** The friction coefficient: rising with the inertial number [I] from the sum of [phi mu_0] towards the sum of
    [phi (mu_0 + delta_mu)] (pouliquen), or without bound (linear_mu).  The inertial number is taken at the pressure from before the increment. *)
Theorem C77_mu : forall P S0 S ip (p p' : particle R) (G G' : grid R) rho_s, apply_law P S0 S ip p G = Ok (p', G') -> 0 < p_dt P ->
  s_rho_s S = Some rho_s ->
  (s_law S = Pouliquen \/ s_law S = LinearMu ->
     pI p' = shear_rate (pdstrain p) (p_dt P) * wsum (pphi p) (gs (pG P)) (ns (pG P)) * sqrt (rho_s / Rabs (ppressure p))) /\
  (forall m0 dm I0, s_law S = Pouliquen -> s_mu_0 S = Some (Ar m0) -> s_delta_mu S = Some (Ar dm) -> s_I_0 S = Some (Ar I0) ->
     0 < pI p' -> 0 <= wsum (pphi p) I0 (ns (pG P)) ->
     pmu p' = Some (wsum (pphi p) m0 (ns (pG P)) +
                    wsum (pphi p) dm (ns (pG P)) * (pI p' / (pI p' + wsum (pphi p) I0 (ns (pG P)))))) /\
  (forall m0 b, s_law S = LinearMu -> s_mu_0 S = Some (Sc m0) -> s_b S = Some b -> pmu p' = Some (m0 + b * pI p')).
Proof. exact p_C77_mu. Qed.
Print Assumptions C77_mu.

Example C77_friction_example : exists P S (p p' : particle R) (G G' : grid R) emax mu, s_law S = LinearMu /\
  apply_law P S S 0 p G = Ok (p', G') /\ 0 < p_dt P /\ s_eta_max S = Some emax /\ 0 <= emax /\
  0 < frob (deviator (pdstrain p)) /\ pmu p' = Some mu /\ 0 <= mu.
Proof. exact x_C77_friction. Qed.

Example C77_mu_example : exists P S (p p' : particle R) (G G' : grid R) rho_s, s_law S = LinearMu /\
  apply_law P S S 0 p G = Ok (p', G') /\ 0 < p_dt P /\ s_rho_s S = Some rho_s /\ s_mu_0 S = Some (Sc 2) /\ s_b S = Some 1.
Proof. exact x_C77_mu. Qed.

(** The coefficient multiplies the pressure from before the increment: a point that expands so far that its pressure
    is cut to zero keeps a shear stress. *)
Theorem C77_new_pressure_refuted : ~ forall P S0 S ip (p p' : particle R) (G G' : grid R) emax mu,
  s_law S = LinearMu -> apply_law P S0 S ip p G = Ok (p', G') -> 0 < p_dt P -> s_eta_max S = Some emax -> 0 <= emax ->
  pmu p' = Some mu -> 0 <= mu -> frob (pdev p') / sqrt 2 <= mu * Rabs (ppressure p').
Proof. exact p_C77_new_pressure_refuted. Qed.
Print Assumptions C77_new_pressure_refuted.

(** ken_kamrin: with the pressure [q] after the increment (positive in tension) and the shear rate, not less than
    [sqrt 2 / 100000], the shear stress is along the shear of the increment. Where the cap of the viscosity is not
    negative, the size of the shear stress is the friction coefficient times [q], or the cap times the shear rate,
    whichever is smaller. *)
Theorem C78_friction : forall P S0 S ip (p p' : particle R) (G G' : grid R) K ms m2 I0, s_law S = KenKamrin ->
  apply_law P S0 S ip p G = Ok (p', G') -> 0 < p_dt P -> s_K S = Some K -> s_mu_s S = Some ms -> s_mu_2 S = Some m2 ->
  s_I_0 S = Some (Sc I0) -> 0 <= ms <= m2 -> 0 <= I0 ->
  let q := ppressure p + K * (tr3 (pdstrain p) / 3) in
  let H := y_M (pG P) - y_m (pG P) in
  let cap := 250 * prho p * p_max_g P * (H * H * H) in
  let gd := Rmax (shear_rate (pdstrain p) (p_dt P)) (sqrt 2 / 100000) in
  ppressure p' = q /\
  exists mu, ms <= mu <= m2 /\
    pdev p' = times (2 / p_dt P * Rmin (Rmax (mu * q / gd) 0) cap) (deviator (pdstrain p)) /\
    (0 <= cap -> sqrt 2 / 100000 <= shear_rate (pdstrain p) (p_dt P) ->
     frob (pdev p') = Rmin (Rmax (mu * q) 0) (cap * shear_rate (pdstrain p) (p_dt P))).
Proof. exact p_C78_friction. Qed.
Print Assumptions C78_friction.

Example C78_friction_example : exists P S (p p' : particle R) (G G' : grid R) I0, s_law S = KenKamrin /\
  apply_law P S S 0 p G = Ok (p', G') /\ 0 < p_dt P /\ s_mu_s S = Some 1 /\ s_mu_2 S = Some 1 /\ s_I_0 S = Some (Sc I0) /\ 0 <= I0 /\
  0 < 250 * prho p * p_max_g P /\ 0 < y_M (pG P) - y_m (pG P) /\ sqrt 2 / 100000 <= shear_rate (pdstrain p) (p_dt P) /\ ppressure p = 1.
Proof. exact x_C78_friction. Qed.

(** With a cap that is not negative, a point that is not in tension has no shear stress. *)
Theorem C78_compressed : forall P S0 S ip (p p' : particle R) (G G' : grid R) K ms m2 I0, s_law S = KenKamrin ->
  apply_law P S0 S ip p G = Ok (p', G') -> 0 < p_dt P -> s_K S = Some K -> s_mu_s S = Some ms -> s_mu_2 S = Some m2 ->
  s_I_0 S = Some (Sc I0) -> 0 <= ms <= m2 -> 0 <= I0 -> 0 <= prho p -> 0 <= p_max_g P -> y_m (pG P) <= y_M (pG P) ->
  ppressure p' <= 0 -> pdev p' = mkM3 0 0 0 0 0 0 0 0 0.
Proof. exact p_C78_compressed. Qed.
Print Assumptions C78_compressed.

Example C78_compressed_example : exists P S (p p' : particle R) (G G' : grid R), s_law S = KenKamrin /\
  apply_law P S S 0 p G = Ok (p', G') /\ 0 < p_dt P /\ 0 < prho p /\ 0 < p_max_g P /\ y_m (pG P) < y_M (pG P) /\
  ppressure p' < 0 /\ 0 < frob (deviator (pdstrain p)).
Proof. exact x_C78_compressed. Qed.

(** With gravity of the sign that the shipped inputs use (negative), the viscosity is the negative cap, whatever the
    pressure and the rate: the shear stress feeds the motion. *)
Theorem C78_gravity : forall P S0 S ip (p p' : particle R) (G G' : grid R) K ms m2 I0, s_law S = KenKamrin ->
  apply_law P S0 S ip p G = Ok (p', G') -> 0 < p_dt P -> s_K S = Some K -> s_mu_s S = Some ms -> s_mu_2 S = Some m2 ->
  s_I_0 S = Some (Sc I0) -> 0 <= ms <= m2 -> 0 <= I0 -> 0 < prho p -> p_max_g P < 0 -> y_m (pG P) < y_M (pG P) ->
  let H := y_M (pG P) - y_m (pG P) in
  let cap := 250 * prho p * p_max_g P * (H * H * H) in
  cap < 0 /\ pdev p' = times (2 / p_dt P * cap) (deviator (pdstrain p)) /\
  (0 < frob (deviator (pdstrain p)) -> inner (pdev p') (deviator (pdstrain p)) < 0).
Proof. exact p_C78_gravity. Qed.
Print Assumptions C78_gravity.

Example C78_gravity_example : exists P S (p p' : particle R) (G G' : grid R), s_law S = KenKamrin /\
  apply_law P S S 0 p G = Ok (p', G') /\ 0 < p_dt P /\ 0 < prho p /\ p_max_g P < 0 /\ y_m (pG P) < y_M (pG P) /\
  0 < frob (deviator (pdstrain p)).
Proof. exact x_C78_gravity. Qed.

(** So the shear stress of ken_kamrin does not always oppose the shear. *)
Theorem C78_dissipates_refuted : ~ forall P S0 S ip (p p' : particle R) (G G' : grid R), s_law S = KenKamrin ->
  apply_law P S0 S ip p G = Ok (p', G') -> 0 < p_dt P -> 0 < prho p -> y_m (pG P) < y_M (pG P) -> 0 <= inner (pdev p') (deviator (pdstrain p)).
Proof. exact p_C78_dissipates_refuted. Qed.
Print Assumptions C78_dissipates_refuted.
