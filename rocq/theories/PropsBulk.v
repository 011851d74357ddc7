(** * What the laws do with changes of volume, and with the time step: C129, C130, C131.
    Statements only; the proofs are in ThmBulk.v. *)
From Coq Require Import ZArith List Bool Arith Lia Reals Lra.
From RecordUpdate Require Import RecordUpdate.
From Verif Require Import State NumR LibR LibList Spec SpecLaws ModelGrid ModelConstit ModelParticle ModelMPList ModelMain ProofsGrid ProofsMap ProofsLaws ProofsHist Concrete ThmMapping ThmLaws.
Import ListNotations.
Local Existing Instance Num_R.
From Verif Require Import ThmBulk.
Local Open Scope R_scope.

(** Without bulk viscosity, a change of volume changes the mean stress of the
    three fluids by a third of K times the change. *)
Theorem C129_third : forall P S0 So ip p G p' G' K, In (s_law So) fluids -> apply_law P S0 So ip p G = Ok (p', G') -> untouched So p -> p_dt P <> 0 ->
  s_K So = Some K -> s_mu_v So = Some 0 -> mean3 (after p') = ppressure p' /\ ppressure p' - ppressure p = K * tr3 (pdstrain p) / 3.
Proof. exact p_C129_third. Qed.
Print Assumptions C129_third.

(** So K is not the bulk modulus of every law: an elastic solid with the same K
    answers the same strain with three times the mean stress. *)
Theorem C129_bulk_refuted : forall P S0 Se Sf ie jf p q G1 G2 p' q' G1' G2' K, s_law Se = Elastic -> In (s_law Sf) fluids -> s_K Se = Some K -> s_K Sf = Some K -> s_mu_v Sf = Some 0 ->
  apply_law P S0 Se ie p G1 = Ok (p', G1') -> apply_law P S0 Sf jf q G2 = Ok (q', G2') -> untouched Sf q -> p_dt P <> 0 -> pdstrain p = pdstrain q -> mean3 (pstress q) = ppressure q ->
  mean3 (after p') - mean3 (pstress p) = 3 * (mean3 (after q') - mean3 (pstress q)) /\
  (mean3 (after p') - mean3 (pstress p) = mean3 (after q') - mean3 (pstress q) <-> K * tr3 (pdstrain p) = 0).
Proof. exact p_C129_bulk_refuted. Qed.
Print Assumptions C129_bulk_refuted.

(** The shear viscosity takes energy out of the motion, the bulk viscosity puts
    energy into it. *)
Theorem C130_work : forall P S0 So ip p G p' G' mu_s mu_v, s_law So = Viscous -> apply_law P S0 So ip p G = Ok (p', G') -> p_dt P <> 0 -> s_mu_s So = Some mu_s -> s_mu_v So = Some mu_v ->
  viscous_work p p' = 2 * mu_s * inner (deviator (pdstrain p)) (deviator (pdstrain p)) / p_dt P - mu_v * (tr3 (pdstrain p)) ^ 2 / (3 * p_dt P).
Proof. exact p_C130_work. Qed.
Print Assumptions C130_work.

(** A pure change of volume: the viscous stress of any of the three fluids does
    negative work -- it drives the motion it should resist. *)
Theorem C130_dissipates_refuted : forall P S0 So ip p G p' G' mu_v, In (s_law So) fluids -> apply_law P S0 So ip p G = Ok (p', G') -> untouched So p -> 0 < p_dt P -> s_mu_v So = Some mu_v -> 0 < mu_v ->
  (exists e, e <> 0 /\ pdstrain p = times e (mkM3 1 0 0 0 1 0 0 0 1)) -> viscous_work p p' < 0.
Proof. exact p_C130_dissipates_refuted. Qed.
Print Assumptions C130_dissipates_refuted.

(** Where mu_v exceeds K dt, a point without stress that is compressed is under
    tension afterwards, whatever it is compressed by. *)
Theorem C130_compressed_refuted : forall P S0 So ip p G p' G' K mu_v, In (s_law So) fluids -> apply_law P S0 So ip p G = Ok (p', G') -> untouched So p -> 0 < p_dt P -> s_K So = Some K -> s_mu_v So = Some mu_v ->
  ppressure p = 0 -> tr3 (pdstrain p) < 0 -> (0 < mean3 (after p') <-> K * p_dt P < mu_v).
Proof. exact p_C130_compressed_refuted. Qed.
Print Assumptions C130_compressed_refuted.

(** A point of the first phase after [t_0] loses a twentieth of its mass in
    every step, until it is down to the mass of the fluid. *)
Theorem C131_loss : forall (Pn : nat -> params R) S0 So (p p' : nat -> particle R) (G G' : nat -> grid R) rf t0 n,
  s_law So = ElasticTime -> s_rho_f So = Some rf -> s_t_0 So = Some t0 -> (forall k, t0 < p_t (Pn k)) -> 0 <= pm (p 0%nat) ->
  (forall k, apply_law (Pn k) S0 So 0 (p k) (G k) = Ok (p' k, G' k)) ->
  (forall k, pm (p (k + 1)%nat) = pm (p' k) /\ pV (p (k + 1)%nat) = pV (p' k)) ->
  (forall k, (k < n)%nat -> rf * pV (p 0%nat) < (95 / 100) ^ k * pm (p 0%nat)) ->
  pm (p n) = (95 / 100) ^ n * pm (p 0%nat).
Proof. exact p_C131_loss. Qed.
Print Assumptions C131_loss.

(** So what has drained after a time depends on the steps that made it up: two
    runs of the same point that reach the same time in different numbers of
    steps leave different masses. *)
Theorem C131_timestep_refuted : forall (Pn Qn : nat -> params R) S0 So (p p' q q' : nat -> particle R) (G G' H H' : nat -> grid R) rf t0 n m,
  s_law So = ElasticTime -> s_rho_f So = Some rf -> s_t_0 So = Some t0 -> (forall k, t0 < p_t (Pn k) /\ t0 < p_t (Qn k)) ->
  (forall k, apply_law (Pn k) S0 So 0 (p k) (G k) = Ok (p' k, G' k)) -> (forall k, pm (p (k + 1)%nat) = pm (p' k) /\ pV (p (k + 1)%nat) = pV (p' k)) ->
  (forall k, apply_law (Qn k) S0 So 0 (q k) (H k) = Ok (q' k, H' k)) -> (forall k, pm (q (k + 1)%nat) = pm (q' k) /\ pV (q (k + 1)%nat) = pV (q' k)) ->
  p 0%nat = q 0%nat -> 0 < pm (p 0%nat) -> (forall k, (k < max n m)%nat -> rf * pV (p 0%nat) < (95 / 100) ^ k * pm (p 0%nat)) ->
  INR n * p_dt (Pn 0%nat) = INR m * p_dt (Qn 0%nat) -> p_dt (Pn 0%nat) <> p_dt (Qn 0%nat) -> (0 < n)%nat -> 0 < p_dt (Pn 0%nat) ->
  pm (p n) <> pm (q m).
Proof. exact p_C131_timestep_refuted. Qed.
Print Assumptions C131_timestep_refuted.

(** A solid and the three fluids with K = 3, compressed by the same amount. *)
Example C129_bulk_refuted_example : forall l, In l fluids -> exists P p G p' q' G1 G2,
  s_law (oil Elastic 0) = Elastic /\ In (s_law (oil l 0)) fluids /\ s_K (oil l 0) = Some 3 /\ s_mu_v (oil l 0) = Some 0 /\ untouched (oil l 0) p /\ p_dt P <> 0 /\ mean3 (pstress p) = ppressure p /\
  apply_law P (oil Elastic 0) (oil Elastic 0) 0 p G = Ok (p', G1) /\ apply_law P (oil l 0) (oil l 0) 0 p G = Ok (q', G2) /\ 3 * tr3 (pdstrain p) <> 0.
Proof. exact x_C129_bulk_refuted. Qed.

(** The three fluids with K = 3 and mu_v = 1 in steps of 1/10. *)
Example C130_compressed_refuted_example : forall l, In l fluids -> exists P p G p' G',
  In (s_law (oil l 1)) fluids /\ apply_law P (oil l 1) (oil l 1) 0 p G = Ok (p', G') /\ untouched (oil l 1) p /\ 0 < p_dt P /\ s_mu_v (oil l 1) = Some 1 /\
  (exists e, e <> 0 /\ pdstrain p = times e (mkM3 1 0 0 0 1 0 0 0 1)) /\ s_K (oil l 1) = Some 3 /\ ppressure p = 0 /\ tr3 (pdstrain p) < 0 /\ 3 * p_dt P < 1.
Proof. exact x_C130_compressed_refuted. Qed.

(** A point ten times as heavy as the fluid, after [t_0]. *)
Example C131_timestep_refuted_example : exists (P : params R) (p p' : nat -> particle R) (G G' : nat -> grid R), (forall k, pm (p (k + 1)%nat) = pm (p' k) /\ pV (p (k + 1)%nat) = pV (p' k)) /\
  (forall k, apply_law P (oil ElasticTime 0) (oil ElasticTime 0) 0 (p k) (G k) = Ok (p' k, G' k)) /\ s_rho_f (oil ElasticTime 0) = Some 1 /\ s_t_0 (oil ElasticTime 0) = Some 0 /\
  0 < p_t P /\ 0 < pm (p 0%nat) /\ (forall k, (k < 2)%nat -> 1 * pV (p 0%nat) < (95 / 100) ^ k * pm (p 0%nat)).
Proof. exact x_C131_timestep_refuted. Qed.
