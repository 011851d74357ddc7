(** * Drucker-Prager laws on reals with infinities and NaN
    Statements only; the proofs are in ThmLawsD.v. *)
From Coq Require Import ZArith List Bool Arith Lia Reals Lra.
From Verif Require Import State NumR NumX LibR LibList Spec SpecLaws ModelGrid ModelConstit ModelParticle ModelMPList ModelMain ProofsGrid ProofsMap ProofsLaws ProofsHist ProofsX Concrete ThmLawsX.
Import ListNotations.
From Verif Require Import ThmLawsD.
Local Open Scope R_scope.

(** [MP.mu] does not exist on a new particle and the law does not create it:
    stress can never be updated. *)
Theorem C26_law_refuted : forall T (NT : Num T) (P : params T) S MP G r, pmu MP = None -> dp P S MP G <> Ok r.
Proof. exact p_C26_law_refuted. Qed.
Print Assumptions C26_law_refuted.

Theorem C26_new_particle_refuted : forall T (NT : Num T) (P Q : params T) S0 S x y phi MP S1 G r,
  particle_init P S0 S x y phi = Ok MP -> dp Q S1 MP G <> Ok r.
Proof. exact p_C26_new_particle_refuted. Qed.
Print Assumptions C26_new_particle_refuted.

(** No time step succeeds while a new particle of such a phase exists. *)
Theorem C26_step_refuted : forall T (NT : Num T) uf fill (s : state T) ph MP r,
  In ph (sL s) -> In MP (live ph) -> s_law (ph_sol ph) = Dp -> pmu MP = None -> time_march uf fill s <> Ok r.
Proof. exact p_C26_step_refuted. Qed.
Print Assumptions C26_step_refuted.

Example C26_step_refuted_example : forall G : grid R, exists s ph MP, In ph (sL s) /\ In MP (live ph) /\ s_law (ph_sol ph) = Dp /\ pmu MP = None /\ sG s = G.
Proof. exact x_C26_step_refuted. Qed.

(** For an isotropic compressive stress -- the state a lithostatic start
    produces -- the whole in-plane stress increment is NaN; for every other
    compressive stress it is finite, and elastic below yield. *)
Theorem C27_exact : forall P S0 S MP G e s mu beta K g t n,
  pdstrain MP = F3 e -> pstress MP = F3 s -> 0 < plane_p s ->
  s_mu S0 = Some (Fin mu) -> 0 < mu -> s_G S0 = Some (Fin g) -> s_t_star S0 = Some (Fin t) -> 0 < t ->
  s_K S0 = Some (Fin K) -> s_beta S0 = Some (Fin beta) -> s_mu S <> None ->
  slens n G -> (forall r, (r < 4)%nat -> exists k, pyi n (nearby (pnstar MP) r (nx (pG P))) = Some k) ->
  exists MP' G', dp_rate P S0 S MP G = Ok (MP', G') /\
    (xx s = yy s /\ xy s = 0 /\ yx s = 0 -> block2 (pdstress MP') = mkM2 NaN NaN NaN NaN) /\
    (~ (xx s = yy s /\ xy s = 0 /\ yx s = 0) -> exists d, block2 (pdstress MP') = F2 d /\
       (plane_q s <= mu * plane_p s -> d = plane_elastic K g e)).
Proof. exact p_C27_exact. Qed.
Print Assumptions C27_exact.

Theorem C27_finite_refuted : forall P S0 S MP G e s p mu beta K g t n,
  pdstrain MP = F3 e -> pstress MP = F3 s -> 0 < p -> xx s = - p -> yy s = - p -> xy s = 0 -> yx s = 0 ->
  s_mu S0 = Some (Fin mu) -> 0 < mu -> s_G S0 = Some (Fin g) -> s_t_star S0 = Some (Fin t) -> 0 < t ->
  s_K S0 = Some (Fin K) -> s_beta S0 = Some (Fin beta) -> s_mu S <> None ->
  slens n G -> (forall r, (r < 4)%nat -> exists k, pyi n (nearby (pnstar MP) r (nx (pG P))) = Some k) ->
  exists MP' G', dp_rate P S0 S MP G = Ok (MP', G') /\ block2 (pdstress MP') = mkM2 NaN NaN NaN NaN.
Proof. exact p_C27_finite_refuted. Qed.
Print Assumptions C27_finite_refuted.

Example C27_exact_example : forall s e, pdstrain (xp 0 e s) = F3 e /\ pstress (xp 0 e s) = F3 s /\ exists S0 : solid (X R),
  s_mu S0 = Some (Fin (1/2)) /\ s_G S0 = Some (Fin 2) /\ s_t_star S0 = Some (Fin 1) /\ s_K S0 = Some (Fin 3) /\ s_beta S0 = Some (Fin 0) /\
  slens 12 xG /\ (forall r, (r < 4)%nat -> exists k, pyi 12 (nearby (pnstar (xp 0 e s)) r (nx (pG xP))) = Some k).
Proof. exact x_C27_exact. Qed.
