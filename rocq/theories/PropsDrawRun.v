(** * The pictures after a step: C119, C121.
    Statements only; the proofs are in ThmDrawRun.v. *)
From Coq Require Import ZArith Reals List Bool Arith Lra Lia.
From RecordUpdate Require Import RecordUpdate.
From Verif Require Import State NumR Spec SpecLaws SpecStep LibList LibR ModelGrid ModelConstit ModelParticle ModelMPList
  ModelIntegr ModelMain ModelSave ModelDraw ProofsGrid ProofsMap ProofsP2G ProofsWalls ProofsLaws ProofsHist ProofsStep ProofsPoints Concrete
  ThmMapping ThmLaws ThmStep ThmFields ThmShown ThmFrac ProofsSave ThmSave ThmDraw.
Import ListNotations.
Local Existing Instance Num_R.
From Verif Require Import ThmDrawRun.
Local Open Scope R_scope.

(** After a step of a run without segregation and joined ends the picture of the continuum can be drawn, for any law; the flow
    laws need the parameter [eta_max]. *)
Theorem C119_draws : forall uf fill (s s' : state R) So, proper (pG (sP s)) -> grid_ok (pG (sP s)) (sG s) ->
  all_live (sL s) (fun _ p => in_dom (pG (sP s)) (px p)) -> p_seg (sP s) = false -> cyclic_lr (pB (sP s)) = false -> time_march uf fill s = Ok s' ->
  (s_law So = Bingham \/ s_law So = Pouliquen \/ s_law So = LinearMu \/ (exists u, s_law So = UnknownLaw u) -> s_eta_max So <> None) ->
  exists Ds, draw_continuum (sP s') So (sG s') = Ok Ds.
Proof. exact p_C119_draws. Qed.
Print Assumptions C119_draws.

Example C119_draws_example : forall uf fill So, In So [ex_solid Elastic; ex_solid VonMises; ex_solid Viscous; ex_solid DpRate; mud (Some 1)] ->
  exists (s s' : state R) ps, proper (pG (sP s)) /\ grid_ok (pG (sP s)) (sG s) /\ all_live (sL s) (fun _ p => in_dom (pG (sP s)) (px p)) /\
  p_seg (sP s) = false /\ cyclic_lr (pB (sP s)) = false /\ sL s = [mkPhase So 2 v0 ps] /\ length ps = 2%nat /\ time_march uf fill s = Ok s' /\
  (s_law So = Bingham \/ s_law So = Pouliquen \/ s_law So = LinearMu \/ (exists u, s_law So = UnknownLaw u) -> s_eta_max So <> None).
Proof. exact x_C119_draws. Qed.

(** The law bingham runs without [eta_max] but its picture cannot be drawn. *)
Theorem C119_draws_refuted : ~ forall uf fill (s s' : state R) ph L, ready s -> shut (sP s) -> sL s = ph :: L -> time_march uf fill s = Ok s' ->
  exists Ds, draw_continuum (sP s') (ph_sol ph) (sG s') = Ok Ds.
Proof. exact p_C119_draws_refuted. Qed.
Print Assumptions C119_draws_refuted.

Example C119_motion_example : exists P (G : grid R) Ds, draw_continuum P (ex_solid Viscous) G = Ok Ds /\ s_law (ex_solid (T := R) Viscous) <> Rigid /\ pG P = ex_gridp /\ 0 < nth 0 (gm G) 0.
Proof. exact x_C119_motion. Qed.

Example C119_rate_example : forall So, In So [ex_solid Elastic; ex_solid VonMises; ex_solid Viscous; ex_solid DpRate; mud (Some 1)] ->
  exists P (G : grid R) Ds, draw_continuum P So G = Ok Ds /\ 0 < nth 0 (gm G) 0.
Proof. exact x_C119_rate. Qed.

Example C119_stress_example : exists P (G : grid R) Ds, draw_continuum P (mud (Some 1)) G = Ok Ds /\ family_of (s_law (mud (Some 1))) = FamFlow /\ 0 < nth 0 (gm G) 0.
Proof. exact x_C119_stress. Qed.

Example C119_gradient_example : exists P (G : grid R) Ds, s_law (ex_solid (T := R) Viscous) = Viscous /\ draw_continuum P (ex_solid Viscous) G = Ok Ds /\ 0 < nth 0 (gm G) 0.
Proof. exact x_C119_gradient. Qed.

(** The drawn pressure of a node is a mean of what the points show: after a step it lies between any bounds on the
    pressure of the points. *)
Theorem C119_mean : forall uf fill (s s' : state R) So Ds lo hi, proper (pG (sP s)) -> grid_ok (pG (sP s)) (sG s) -> shut (sP s) ->
  all_live (sL s) (fun ph p => in_dom (pG (sP s)) (px p) /\ 0 <= pm p) ->
  (forall ph, In ph (sL s) -> s_law (ph_sol ph) <> Rigid /\ s_law (ph_sol ph) <> Dp /\ s_law (ph_sol ph) <> DpRate /\ s_law (ph_sol ph) <> ElasticTime) ->
  time_march uf fill s = Ok s' -> draw_continuum (sP s') So (sG s') = Ok Ds ->
  s_law So = Elastic \/ s_law So = VonMises \/ s_law So = Bingham \/ s_law So = Pouliquen \/ s_law So = LinearMu ->
  all_live (sL s') (fun ph p => lo <= - shown (p_dt (sP s)) (s_law (ph_sol ph)) Fpressure p <= hi) ->
  exists v, shows (pG (sP s')) (gm (sG s')) Ds TPress v /\ forall k, 0 < nth k (gm (sG s')) 0 -> lo <= v k <= hi.
Proof. exact p_C119_mean. Qed.
Print Assumptions C119_mean.

Example C119_mean_example : forall uf fill, exists (s s' : state R) Ds, proper (pG (sP s)) /\ grid_ok (pG (sP s)) (sG s) /\ shut (sP s) /\
  all_live (sL s) (fun ph p => in_dom (pG (sP s)) (px p) /\ 0 <= pm p) /\
  (forall ph, In ph (sL s) -> s_law (ph_sol ph) = Elastic) /\ time_march uf fill s = Ok s' /\ draw_continuum (sP s') (ex_solid Elastic) (sG s') = Ok Ds /\ 0 < nth 0 (gm (sG s')) 0.
Proof. exact x_C119_mean. Qed.

(** The colour of a point is its shear rate for the three elastic laws.  The other laws already divide by the time step, and
    the picture divides once more. *)
Theorem C121_rate : forall P S0 S ip (p p' : particle R) (G G' : grid R), apply_law P S0 S ip p G = Ok (p', G') -> 0 < p_dt P ->
  let rate := frob (deviator (pdstrain p)) / p_dt P in
  (s_law S = Elastic \/ s_law S = ElasticTime \/ s_law S = VonMises -> drawn_rate P p' = rate) /\
  (s_law S = Viscous \/ s_law S = Bingham -> drawn_rate P p' = rate / p_dt P) /\
  (s_law S = Pouliquen \/ s_law S = LinearMu -> drawn_rate P p' = 2 * rate / p_dt P).
Proof. exact p_C121_rate. Qed.
Print Assumptions C121_rate.

Theorem C121_rate_refuted : ~ forall P S0 S ip (p p' : particle R) (G G' : grid R), apply_law P S0 S ip p G = Ok (p', G') -> 0 < p_dt P ->
  s_law S = Viscous -> drawn_rate P p' = frob (deviator (pdstrain p)) / p_dt P.
Proof. exact p_C121_rate_refuted. Qed.
Print Assumptions C121_rate_refuted.

Example C121_rate_example : forall l, In l [Elastic; ElasticTime; VonMises; Viscous; Bingham; LinearMu] ->
  exists P S (p p' : particle R) (G G' : grid R), s_law S = l /\ apply_law P S S 0 p G = Ok (p', G') /\ 0 < p_dt P /\ 0 < frob (deviator (pdstrain p)).
Proof. exact x_C121_rate. Qed.
