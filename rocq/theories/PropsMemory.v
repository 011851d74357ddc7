(** * What grains remember of having been apart: C137.
    Statements only; the proofs are in ThmMemory.v. *)
From Coq Require Import ZArith List Bool Arith Lia Reals Lra.
From RecordUpdate Require Import RecordUpdate.
From Verif Require Import State NumR LibR LibList Spec SpecLaws ModelGrid ModelConstit ModelParticle ModelMPList ModelMain ProofsGrid ProofsMap ProofsLaws ProofsHist Concrete ThmMapping ThmLaws ThmFields ThmRheo ThmBulk.
Import ListNotations.
Local Existing Instance Num_R.
From Verif Require Import ThmMemory.
Local Open Scope R_scope.

(** After any history, the pressure is K times the compression since the moment
    at which the grains were furthest apart. *)
Theorem C137_exact : forall Pn S0 So ip p p' G G' n K, In (s_law So) grains -> s_K So = Some K -> 0 < K -> ppressure (p 0%nat) <= 0 ->
  history Pn S0 So ip p p' G G' n -> ppressure (p n) = K * (swell p n - widest (- ppressure (p 0%nat) / K) p n).
Proof. exact p_C137_exact. Qed.
Print Assumptions C137_exact.

(** So grains that are apart can press against each other: all it takes is that they have been further apart before. *)
Theorem C137_apart_refuted : forall Pn S0 So ip p p' G G' n j K, In (s_law So) grains -> s_K So = Some K -> 0 < K -> ppressure (p 0%nat) = 0 ->
  history Pn S0 So ip p p' G G' n -> (j <= n)%nat -> 0 <= swell p n < swell p j -> ppressure (p n) < 0.
Proof. exact p_C137_apart_refuted. Qed.
Print Assumptions C137_apart_refuted.

(** Grains that have never been further apart than they are now, or than they were without pressure, carry none. *)
Theorem C137_loose : forall Pn S0 So ip p p' G G' n K, In (s_law So) grains -> s_K So = Some K -> 0 < K -> ppressure (p 0%nat) <= 0 ->
  history Pn S0 So ip p p' G G' n -> (0 < n)%nat -> - ppressure (p 0%nat) <= K * swell p n -> (forall j, (j <= n)%nat -> swell p j <= swell p n) -> ppressure (p n) = 0.
Proof. exact p_C137_loose. Qed.
Print Assumptions C137_loose.

(** Grains pulled apart and pushed half of the way back, with both laws that need no density. *)
Example C137_apart_refuted_example : forall l, l = LinearMu \/ l = KenSimple -> exists Pn So p p' G G', s_law So = l /\ s_K So = Some 3 /\ ppressure (p 0%nat) = 0 /\
  history Pn So So 0 p p' G G' 2 /\ 0 < swell p 2 < swell p 1.
Proof. exact x_C137_apart_refuted. Qed.

(** The granular laws too have a third of K as their bulk modulus, as long as the grains are pressed. *)
Theorem C129_grains : forall P S0 So ip p G p' G' K emax, s_law So = Pouliquen \/ s_law So = LinearMu -> apply_law P S0 So ip p G = Ok (p', G') -> dense So p -> 0 < p_dt P ->
  s_K So = Some K -> s_eta_max So = Some emax -> ppressure p + K * tr3 (pdstrain p) / 3 <= 0 ->
  mean3 (after p') = ppressure p' /\ ppressure p' - ppressure p = K * tr3 (pdstrain p) / 3.
Proof. exact p_C129_grains. Qed.
Print Assumptions C129_grains.

Example C137_loose_example : exists Pn So p p' G G', s_law So = LinearMu /\ s_K So = Some 3 /\ ppressure (p 0%nat) = - 1 /\
  history Pn So So 0 p p' G G' 1 /\ - ppressure (p 0%nat) <= 3 * swell p 1 /\ (forall j, (j <= 1)%nat -> swell p j <= swell p 1).
Proof. exact x_C137_loose. Qed.

Example C129_grains_example : exists P So p G p' G', s_law So = LinearMu /\ apply_law P So So 0 p G = Ok (p', G') /\ dense So p /\ 0 < p_dt P /\ s_K So = Some 3 /\ s_eta_max So = Some 1 /\
  ppressure p = -1 /\ 3 * tr3 (pdstrain p) / 3 = -3.
Proof. exact x_C129_grains. Qed.
