(** * The law ken_simple never sees the shear rate: C79.
    Statements only; the proofs are in ThmRheoX.v. *)
From Coq Require Import ZArith List Bool Arith Lia QArith Reals Lra.
From Verif Require Import State NumR NumX NumQ LibR LibList Spec SpecStep SpecLaws ModelGrid ModelConstit ModelParticle ModelMPList ModelIntegr ModelMain ProofsGrid
  ProofsMap ProofsLaws ProofsSym ProofsP2G ProofsInOut ProofsHist ProofsX Concrete ThmMapping ThmLaws ThmLawsX ThmInOut ThmHist ThmFields ThmRheo.
Import ListNotations.
From Verif Require Import ThmRheoX.
Local Open Scope R_scope.

(** Two points with the same pressure and the same stored shear rate get the same viscosity, however differently
    they deform; and the stored shear rate is not updated. *)
Theorem C79_rate_blind : forall (T : Type) (N : Num T) (P : params T) S0 S ip ip' (p q p' q' : particle T) (G G1 G' G1' : grid T),
  s_law S = KenSimple -> apply_law P S0 S ip p G = Ok (p', G') -> apply_law P S0 S ip' q G1 = Ok (q', G1') ->
  ppressure p = ppressure q -> pgammadot p = pgammadot q ->
  peta p' = peta q' /\ pgammadot p' = pgammadot p /\ pgammadot q' = pgammadot q.
Proof. exact p_C79_rate_blind. Qed.
Print Assumptions C79_rate_blind.

(** After any number of steps the points of such a phase that were there at the start hold the shear rate they had. *)
Theorem C79_history : forall (T : Type) (N : Num T) uf fill (s s' : state T), counted (sL s) -> reach uf fill s s' ->
  Forall2 (fun ph ph' => s_law (ph_sol ph) = KenSimple -> exists sel kept new, subseq sel (ph_pts ph) /\ ph_pts ph' = kept ++ new /\
      Forall2 (fun p p' => pgammadot p' = pgammadot p) sel kept /\
      (inlet_right (pB (sP s)) = false -> inlet_top (pB (sP s)) = false -> new = []))
    (sL s) (sL s').
Proof. exact p_C79_history. Qed.
Print Assumptions C79_history.

(** A state after one step of a phase of two points with this law. *)
Example C79_history_example : exists (G : grid Q) s', grid_init (T := Q) ex_gridp ex_bounds = Ok G /\ counted qL /\
  map (fun ph => s_law (ph_sol ph)) qL = [KenSimple] /\
  reach (fun P => p_loads P) (fun _ l => l) (mkState (ex_params ex_bounds) G qL) s' /\ (p_t (sP s') == 1 # 10)%Q.
Proof. exact x_C79_history. Qed.

(** A point made without a prescribed flow starts with the shear rate zero. *)
Theorem C79_initial : forall (T : Type) (N : Num T) (P : params T) S0 S x y phi p, p_flow P = FNone ->
  particle_init P S0 S x y phi = Ok p -> pgammadot p = n0.
Proof. exact p_C79_initial. Qed.
Print Assumptions C79_initial.

Example C79_initial_example : exists p, p_flow (ex_params (T := Q) ex_bounds) = FNone /\
  particle_init (ex_params (T := Q) ex_bounds) (ex_solid_sc KenSimple) (ex_solid_sc KenSimple) 1%Q 1%Q [] = Ok p.
Proof. exact x_C79_initial. Qed.

(** In floating point the viscosity of such a point is then [eta_max], or zero if the pressure or the friction
    coefficient is zero; the shear stress is proportional to the increment. *)
Theorem C79_saturated : forall (P : params (X R)) S0 S ip p p' G G' mu emax q e dt, s_law S = KenSimple -> apply_law P S0 S ip p G = Ok (p', G') ->
  pgammadot p = Fin 0 -> ppressure p = Fin q -> s_mu_0 S = Some (Sc (Fin mu)) -> 0 <= mu -> s_eta_max S = Some (Fin emax) -> 0 <= emax <= fltmax ->
  pdstrain p = F3 e -> p_dt P = Fin dt -> 0 < dt ->
  exists eta, peta p' = Fin eta /\ pdev p' = F3 (times (eta / dt) (deviator e)) /\
    (mu * Rabs q = 0 -> eta = 0) /\ (0 < mu * Rabs q -> eta = emax).
Proof. exact p_C79_saturated. Qed.
Print Assumptions C79_saturated.

Example C79_rate_blind_example : exists (p q p' q' : particle (X R)) G' G1', s_law xS = KenSimple /\ apply_law xP xS xS 0 p xG = Ok (p', G') /\
  apply_law xP xS xS 0 q xG = Ok (q', G1') /\ ppressure p = ppressure q /\ pgammadot p = pgammadot q /\ xy (pdstrain p) = Fin 1 /\ xy (pdstrain q) = Fin 2.
Proof. exact x_C79_rate_blind. Qed.

Example C79_saturated_example : exists (p p' : particle (X R)) G', s_law xS = KenSimple /\ apply_law xP xS xS 0 p xG = Ok (p', G') /\
  pgammadot p = Fin 0 /\ ppressure p = Fin (-1) /\ s_mu_0 xS = Some (Sc (Fin 2)) /\ s_eta_max xS = Some (Fin 1) /\ 0 <= 1 <= fltmax (T := R) /\
  p_dt xP = Fin (1/10).
Proof. exact x_C79_saturated. Qed.

(** So the law is not the constant-friction law it is meant to be: the shear stress is not bounded by the friction
    coefficient times the pressure (the larger of the two, before and after). *)
Theorem C79_friction_refuted : ~ forall (P : params (X R)) S0 S ip p p' G G' mu q q' d, s_law S = KenSimple -> apply_law P S0 S ip p G = Ok (p', G') ->
  pgammadot p = Fin 0 -> ppressure p = Fin q -> ppressure p' = Fin q' -> s_mu_0 S = Some (Sc (Fin mu)) -> 0 <= mu -> pdev p' = F3 d ->
  frob d / sqrt 2 <= mu * Rmax (Rabs q) (Rabs q').
Proof. exact p_C79_friction_refuted. Qed.
Print Assumptions C79_friction_refuted.
