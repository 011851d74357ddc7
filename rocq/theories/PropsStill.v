(** * Shear stress without motion: C138.
    Statements only; the proofs are in ThmStill.v. *)
From Coq Require Import ZArith List Bool Arith Lia Reals Lra.
From RecordUpdate Require Import RecordUpdate.
From Verif Require Import State NumR LibR LibList Spec SpecLaws ModelGrid ModelConstit ModelParticle ModelMPList ModelMain ProofsGrid ProofsMap ProofsLaws ProofsHist Concrete ThmMapping ThmLaws ThmFields ThmRheo ThmBulk ThmMemory.
Import ListNotations.
Local Existing Instance Num_R.
From Verif Require Import ThmStill.
Local Open Scope R_scope.

(** A point that is at rest for one step has lost all of its shear stress,
    whatever its friction or its yield stress, and whatever stress it had. *)
Theorem C138_rest_refuted : forall P S0 So ip p G p' G', In (s_law So) flowing -> update_stress P S0 So ip p G = Ok (p', G') -> untouched So p -> 0 < p_dt P ->
  pdstrain p = mkM3 0 0 0 0 0 0 0 0 0 -> pL p = mkM3 0 0 0 0 0 0 0 0 0 -> deviator (pstress p') = mkM3 0 0 0 0 0 0 0 0 0.
Proof. exact p_C138_rest_refuted. Qed.
Print Assumptions C138_rest_refuted.

(** To carry a shear stress, a granular material has to creep: at least at the
    rate that the limit on the viscosity demands. *)
Theorem C138_creep : forall P S0 So ip (p p' : particle R) (G G' : grid R) emax mu, s_law So = Pouliquen \/ s_law So = LinearMu -> apply_law P S0 So ip p G = Ok (p', G') -> 0 < p_dt P ->
  s_eta_max So = Some emax -> 0 < emax -> 0 < frob (deviator (pdstrain p)) -> pmu p' = Some mu -> 0 <= mu ->
  frob (deviator (after p')) / emax <= frob (deviator (pdstrain p)) / p_dt P.
Proof. exact p_C138_creep. Qed.
Print Assumptions C138_creep.

(** A sheared point at rest, with friction or viscosity of any kind. *)
Example C138_rest_refuted_example : forall l, In l [Viscous; Bingham; KenKamrin; LinearMu; KenSimple] -> exists P So p G p' G',
  In (s_law So) flowing /\ update_stress P So So 0 p G = Ok (p', G') /\ untouched So p /\ 0 < p_dt P /\
  pdstrain p = mkM3 0 0 0 0 0 0 0 0 0 /\ pL p = mkM3 0 0 0 0 0 0 0 0 0 /\ pstress p = mkM3 (-3) 1 0 1 (-3) 0 0 0 (-3).
Proof. exact x_C138_rest_refuted. Qed.

Example C138_creep_example : exists P So (p p' : particle R) (G G' : grid R) emax mu, s_law So = LinearMu /\
  apply_law P So So 0 p G = Ok (p', G') /\ 0 < p_dt P /\ s_eta_max So = Some emax /\ 0 < emax /\
  0 < frob (deviator (pdstrain p)) /\ pmu p' = Some mu /\ 0 <= mu.
Proof. exact x_C138_creep. Qed.
