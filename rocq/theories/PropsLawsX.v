(** * Granular laws on reals with infinities and NaN
    Statements only; the proofs are in ThmLawsX.v. *)
From Coq Require Import ZArith List Bool Arith Lia Reals Lra.
From Verif Require Import State NumR NumX LibR LibList Spec SpecLaws ModelGrid ModelConstit ModelParticle ModelMPList ModelMain ProofsGrid ProofsMap ProofsLaws ProofsHist ProofsX Concrete.
Import ListNotations.
From Verif Require Import ThmLawsX.
Local Open Scope R_scope.

(** The law never aborts; the new stress is finite, is a non-tensile pressure plus
    a viscous part along the deviatoric strain increment with a viscosity between
    zero and [eta_max]; the friction coefficient is NaN or within its limits. *)
Theorem C24_safe : forall P S MP G dt e s p rho phi sz mu_0 delta_mu I_0 rho_s emax K rho0 n,
  finite_mp P MP dt e s p rho phi sz ->
  array (s_mu_0 S) mu_0 (ns (pG P)) -> array (s_delta_mu S) delta_mu (ns (pG P)) -> array (s_I_0 S) I_0 (ns (pG P)) ->
  s_rho_s S = Some (Fin rho_s) -> 0 < rho_s -> s_eta_max S = Some (Fin emax) -> 0 <= emax ->
  s_K S = Some (Fin K) -> s_rho S = Fin rho0 ->
  slens n G -> (forall r, (r < 4)%nat -> exists k, pyi n (nearby (pnstar MP) r (nx (pG P))) = Some k) ->
  exists MP' G' p' eta, pouliquen P S MP G = Ok (MP', G') /\
    ppressure MP' = Fin p' /\ p' <= 0 /\ (p' = 0 \/ p' = p + K * (tr3 e / 3)) /\
    peta_lim MP' = Fin eta /\ 0 <= eta <= emax /\
    madd (pstress MP) (pdstress MP') = F3 (plus3 (iso p') (times (eta / dt) (deviator e))) /\
    (pmu MP' = Some NaN \/ exists mu, pmu MP' = Some (Fin mu) /\
       wsum phi mu_0 (ns (pG P)) <= mu <= wsum phi mu_0 (ns (pG P)) + wsum phi delta_mu (ns (pG P))).
Proof. exact p_C24_safe. Qed.
Print Assumptions C24_safe.

(** Zero pressure and zero shear rate included. *)
Example C24_safe_example : forall p e s, finite_mp xP (xp p e s) (1/10) e s p 2 [1/2; 1/2] [1; 2] /\
  slens 12 xG /\ (forall r, (r < 4)%nat -> exists k, pyi 12 (nearby (pnstar (xp p e s)) r (nx (pG xP))) = Some k) /\
  exists S : solid (X R), array (s_mu_0 S) [1/2; 1/2] 2 /\ array (s_delta_mu S) [1/2; 1/2] 2 /\ array (s_I_0 S) [1; 1] 2 /\
    s_rho_s S = Some (Fin 2) /\ s_eta_max S = Some (Fin 1) /\ s_K S = Some (Fin 3) /\ s_rho S = Fin 2.
Proof. exact x_C24_safe. Qed.

(** Scalar parameters are not accepted by this law. *)
Theorem C24_scalar_aborts : forall T (NT : Num T) (P : params T) S MP G m, s_mu_0 S = Some (Sc m) -> (0 < ns (pG P))%nat ->
  (ns (pG P) <= length (pphi MP))%nat -> (ns (pG P) <= length (gs (pG P)))%nat -> pouliquen P S MP G = Err IndexError.
Proof. exact p_C24_scalar_aborts. Qed.
Print Assumptions C24_scalar_aborts.

(** Instance: C24_scalar_aborts_example in PropsInst.v. *)

(** The law always returns; its stress increment is finite exactly when the
    pressure is not zero and the particle shears or has Coulomb friction, and is
    entirely NaN otherwise. *)
Theorem C25_exact : forall P S MP G dt e s p rho phi sz mu_0 b rho_s emax K n,
  finite_mp P MP dt e s p rho phi sz ->
  s_mu_0 S = Some (Sc (Fin mu_0)) -> 0 <= mu_0 -> s_b S = Some (Fin b) -> 0 <= b ->
  s_rho_s S = Some (Fin rho_s) -> 0 < rho_s -> s_eta_max S = Some (Fin emax) -> 0 <= emax -> s_K S = Some (Fin K) ->
  slens n G -> (forall r, (r < 4)%nat -> exists k, pyi n (nearby (pnstar MP) r (nx (pG P))) = Some k) ->
  exists MP' G', linear_mu P S MP G = Ok (MP', G') /\
    (p <> 0 -> 0 < shear_rate e dt \/ 0 < mu_0 ->
       exists p' eta, p' <= 0 /\ 0 <= eta <= emax /\
         madd (pstress MP) (pdstress MP') = F3 (plus3 (iso p') (times (eta / dt) (deviator e)))) /\
    (p = 0 \/ (shear_rate e dt = 0 /\ mu_0 = 0) -> pdstress MP' = NaN3).
Proof. exact p_C25_exact. Qed.
Print Assumptions C25_exact.

(** In particular no particle that carries no pressure yet can be computed. *)
Theorem C25_finite_refuted : forall P S MP G dt e s rho phi sz mu_0 b rho_s emax K n,
  finite_mp P MP dt e s 0 rho phi sz ->
  s_mu_0 S = Some (Sc (Fin mu_0)) -> 0 <= mu_0 -> s_b S = Some (Fin b) -> 0 <= b ->
  s_rho_s S = Some (Fin rho_s) -> 0 < rho_s -> s_eta_max S = Some (Fin emax) -> 0 <= emax -> s_K S = Some (Fin K) ->
  slens n G -> (forall r, (r < 4)%nat -> exists k, pyi n (nearby (pnstar MP) r (nx (pG P))) = Some k) ->
  exists MP' G', linear_mu P S MP G = Ok (MP', G') /\ pdstress MP' = NaN3.
Proof. exact p_C25_finite_refuted. Qed.
Print Assumptions C25_finite_refuted.

Example C25_exact_example : forall p e s, exists S, finite_mp xP (xp p e s) (1/10) e s p 2 [1/2; 1/2] [1; 2] /\
  s_mu_0 S = Some (Sc (Fin (1/2))) /\ s_b S = Some (Fin 1) /\ s_rho_s S = Some (Fin 1) /\ s_eta_max S = Some (Fin 1) /\ s_K S = Some (Fin 3) /\
  slens 12 xG /\ (forall r, (r < 4)%nat -> exists k, pyi 12 (nearby (pnstar (xp p e s)) r (nx (pG xP))) = Some k).
Proof. exact x_C25_exact. Qed.
