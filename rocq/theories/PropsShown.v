(** * What the fields of the laws show: C108.
    Statements only; the proofs are in ThmShown.v. *)
From Coq Require Import ZArith Reals List Bool Arith Lra Lia.
From Verif Require Import State NumR Spec SpecLaws LibList LibR ModelGrid ModelConstit ModelParticle ModelMPList ModelMain
  ProofsGrid ProofsMap ProofsP2G ProofsLaws ProofsHist ProofsStep ProofsPoints Concrete ThmMapping ThmLaws ThmStep ThmFields.
Import ListNotations.
From Verif Require Import ThmShown.
Local Open Scope R_scope.

(** The pressure, deviatoric stress and rate of deviatoric stress that a law shows are those of the stress it asks for;
    the pressure of the viscous laws leaves out the bulk viscosity. *)
Theorem C108_stress : forall P S0 S ip (p p' : particle R) (G G' : grid R), apply_law P S0 S ip p G = Ok (p', G') ->
  (s_law S = VonMises -> tr3 (pdev p) = 0 -> tr3 (pdev p') = 0 /\
     shown (p_dt P) VonMises Fdev p' = frob (deviator (asked p')) /\
     shown (p_dt P) VonMises Fdevdot p' = frob (minus3 (deviator (asked p')) (pdev p)) / p_dt P) /\
  (s_law S = Viscous \/ s_law S = KenKamrin -> exists mu_v, s_mu_v S = Some mu_v /\
     shown (p_dt P) (s_law S) Fdev p' = frob (deviator (asked p')) /\
     shown (p_dt P) (s_law S) Fpressure p' = tr3 (asked p') / 3 + mu_v * (tr3 (pdstrain p) / 3) / p_dt P) /\
  (s_law S = Bingham -> exists mu_v, s_mu_v S = Some mu_v /\
     shown (p_dt P) Bingham Fdev p' = frob (deviator (pstress p')) /\
     shown (p_dt P) Bingham Fpressure p' = tr3 (pstress p') / 3 + mu_v * (tr3 (pdstrain p) / 3) / p_dt P) /\
  (s_law S = Pouliquen \/ s_law S = LinearMu \/ (s_law S = KenSimple /\ 2500 < prho p) ->
     shown (p_dt P) (s_law S) Fdev p' = frob (deviator (asked p')) / sqrt 2 /\
     shown (p_dt P) (s_law S) Fpressure p' = tr3 (asked p') / 3 /\ shown (p_dt P) (s_law S) Fpressure p' <= 0).
Proof. exact p_C108_stress. Qed.
Print Assumptions C108_stress.

(** Four materials with a stress, a strain and a time step. *)
Example C108_stress_example : forall l, In l [VonMises; Viscous; KenKamrin; Bingham; LinearMu] ->
  exists P S (p p' : particle R) (G G' : grid R), s_law S = l /\ apply_law P S S 0 p G = Ok (p', G') /\ tr3 (pdev p) = 0 /\
  0 < frob (deviator (pdstrain p)) /\ tr3 (pdstrain p) = 1.
Proof. exact x_C108_stress. Qed.

(** The shear rates shown: the three elastic laws show the deviatoric strain increment over the time step; ken_kamrin
    shows its strain rate, cut off below, divided by the time step once more. *)
Theorem C108_rate : forall P S0 S ip (p p' : particle R) (G G' : grid R), apply_law P S0 S ip p G = Ok (p', G') -> 0 < p_dt P ->
  (s_law S = Elastic \/ s_law S = ElasticTime \/ s_law S = VonMises ->
     shown (p_dt P) (s_law S) Fgammadot p' = frob (deviator (pdstrain p)) / p_dt P) /\
  (s_law S = KenKamrin ->
     shown (p_dt P) KenKamrin Fgammadot p' = Rmax (sqrt 2 * frob (deviator (pdstrain p)) / p_dt P) (1 / 100000) / p_dt P).
Proof. exact p_C108_rate. Qed.
Print Assumptions C108_rate.

(** Instance: C108_rate_example in PropsCasesRun.v. *)

Theorem C108_rate_refuted : ~ forall P S0 S ip (p p' : particle R) (G G' : grid R), apply_law P S0 S ip p G = Ok (p', G') -> 0 < p_dt P ->
  s_law S = KenKamrin -> 1 / 100000 <= sqrt 2 * frob (deviator (pdstrain p)) / p_dt P ->
  shown (p_dt P) KenKamrin Fgammadot p' = sqrt 2 * frob (deviator (pdstrain p)) / p_dt P.
Proof. exact p_C108_rate_refuted. Qed.
Print Assumptions C108_rate_refuted.

(** Loose grains (ken_simple at a density of at most 2500) have no stress, but the field shows the one of dense grains. *)
Theorem C108_loose : forall P S0 S ip (p p' : particle R) (G G' : grid R), apply_law P S0 S ip p G = Ok (p', G') ->
  s_law S = KenSimple -> prho p <= 2500 -> exists mu emax, s_mu_0 S = Some (Sc mu) /\ s_eta_max S = Some emax /\
  asked p' = times 0 (asked p') /\
  pdev p' = times (Rmin (2 * sqrt 2 * mu * Rabs (ppressure p) / pgammadot p) emax / p_dt P) (deviator (pdstrain p)) /\
  shown (p_dt P) KenSimple Fdev p' = frob (pdev p') / sqrt 2.
Proof. exact p_C108_loose. Qed.
Print Assumptions C108_loose.

Theorem C108_loose_refuted : ~ forall P S0 S ip (p p' : particle R) (G G' : grid R), apply_law P S0 S ip p G = Ok (p', G') ->
  s_law S = KenSimple -> shown (p_dt P) KenSimple Fdev p' = frob (deviator (asked p')) / sqrt 2.
Proof. exact p_C108_loose_refuted. Qed.
Print Assumptions C108_loose_refuted.

(** The viscosity shown for the grains of pouliquen is the one before it is cut off; the stress uses the smaller one. *)
Theorem C108_viscosity : forall P S0 S ip (p p' : particle R) (G G' : grid R), apply_law P S0 S ip p G = Ok (p', G') ->
  s_law S = Pouliquen -> exists emax, s_eta_max S = Some emax /\
  pdev p' = times (Rmin (shown (p_dt P) Pouliquen Feta p') emax / p_dt P) (deviator (pdstrain p)).
Proof. exact p_C108_viscosity. Qed.
Print Assumptions C108_viscosity.

Example C108_viscosity_example : exists P S (p p' : particle R) (G G' : grid R), s_law S = Pouliquen /\ apply_law P S S 0 p G = Ok (p', G') /\
  tr3 (pdstrain p) = 1.
Proof. exact x_C108_viscosity. Qed.

Example C108_loose_example : exists P S (p p' : particle R) (G G' : grid R), s_law S = KenSimple /\ apply_law P S S 0 p G = Ok (p', G') /\
  prho p <= 2500 /\ 0 < p_dt P.
Proof. exact x_C108_loose. Qed.
