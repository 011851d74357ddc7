(** * The nodal fields that the laws fill: C76.
    Statements only; the proofs are in ThmFields.v. *)
From Coq Require Import ZArith Reals List Bool Arith Lra Lia.
From Verif Require Import State NumR Spec SpecLaws LibList LibR ModelGrid ModelConstit ModelParticle ModelMPList ModelMain
  ProofsGrid ProofsMap ProofsP2G ProofsLaws ProofsHist ProofsStep ProofsPoints Concrete ThmMapping ThmLaws ThmStep.
Import ListNotations.
From Verif Require Import ThmFields.
Local Open Scope R_scope.

(** C76.  After a step every nodal field (but the shear rate, which the step recomputes) is the sum over the points
    of mass times tent value at the place where the point was at the start of the step times the quantity its law
    shows. *)
Theorem C76_step : forall uf fill (s s' : state R), proper (pG (sP s)) -> grid_ok (pG (sP s)) (sG s) -> shut (sP s) ->
  all_live (sL s) (fun ph p => in_dom (pG (sP s)) (px p) /\ s_law (ph_sol ph) <> Dp /\ s_law (ph_sol ph) <> DpRate) ->
  time_march uf fill s = Ok s' -> forall f k, f <> Fgammadot ->
  nth k (sget f (sG s')) 0 =
    pair_sum (sL s) (sL s') (fun S p p' => hat (pG (sP s)) (px p) k * (pm p' * shown (p_dt (sP s)) (s_law S) f p')).
Proof. exact p_C76_step. Qed.
Print Assumptions C76_step.

Example C76_step_example : forall uf fill, exists s s' : state R, proper (pG (sP s)) /\ grid_ok (pG (sP s)) (sG s) /\ shut (sP s) /\
  all_live (sL s) (fun ph p => in_dom (pG (sP s)) (px p) /\ s_law (ph_sol ph) <> Dp /\ s_law (ph_sol ph) <> DpRate) /\
  time_march uf fill s = Ok s' /\ (exists ph p q, In ph (sL s) /\ live ph = [p; q] /\ tr3 (pstress p) = 5).
Proof. exact x_C76_step. Qed.

(** One law call: the point adds mass times tent value times the quantity its law shows, to every field. *)
Theorem C76_law : forall P S0 S ip (p p' : particle R) (G G' : grid R), proper (pG P) -> located (pG P) p ->
  slens (nodes (pG P)) G -> s_law S <> Dp -> apply_law P S0 S ip p G = Ok (p', G') ->
  forall f k, nth k (sget f G') 0 =
    nth k (sget f G) 0 + hat (pG P) (px p) k * (pm p' * shown (p_dt P) (s_law S) f p').
Proof. exact p_C76_law. Qed.
Print Assumptions C76_law.

Example C76_law_example : forall l, In l [Elastic; ElasticTime; VonMises; DpRate; Viscous; Bingham; KenKamrin; LinearMu; KenSimple] ->
  exists P S (p p' : particle R) (G G' : grid R), s_law S = l /\ proper (pG P) /\ located (pG P) p /\ slens (nodes (pG P)) G /\
  s_law S <> Dp /\ apply_law P S S 0 p G = Ok (p', G') /\ xy (pdstrain p) = 2.
Proof. exact x_C76_law. Qed.

(** So a nodal field divided by the nodal mass lies between any bounds on what the points show.  Laws under which a
    point keeps its mass. *)
Theorem C76_between : forall uf fill (s s' : state R) f k lo hi, proper (pG (sP s)) -> grid_ok (pG (sP s)) (sG s) -> shut (sP s) ->
  all_live (sL s) (fun ph p => in_dom (pG (sP s)) (px p) /\ 0 <= pm p) ->
  (forall ph, In ph (sL s) -> s_law (ph_sol ph) <> Rigid /\ s_law (ph_sol ph) <> Dp /\ s_law (ph_sol ph) <> DpRate /\
     s_law (ph_sol ph) <> ElasticTime) ->
  time_march uf fill s = Ok s' -> f <> Fgammadot ->
  all_live (sL s') (fun ph p => lo <= shown (p_dt (sP s)) (s_law (ph_sol ph)) f p <= hi) ->
  lo * nth k (gm (sG s')) 0 <= nth k (sget f (sG s')) 0 <= hi * nth k (gm (sG s')) 0.
Proof. exact p_C76_between. Qed.
Print Assumptions C76_between.

Example C76_between_example : forall uf fill, exists (s s' : state R) lo hi, proper (pG (sP s)) /\ grid_ok (pG (sP s)) (sG s) /\ shut (sP s) /\
  all_live (sL s) (fun ph p => in_dom (pG (sP s)) (px p) /\ 0 <= pm p) /\
  (forall ph, In ph (sL s) -> s_law (ph_sol ph) <> Rigid /\ s_law (ph_sol ph) <> Dp /\ s_law (ph_sol ph) <> DpRate /\
     s_law (ph_sol ph) <> ElasticTime) /\
  time_march uf fill s = Ok s' /\
  all_live (sL s') (fun ph p => lo <= shown (p_dt (sP s)) (s_law (ph_sol ph)) Fpressure p <= hi).
Proof. exact x_C76_between. Qed.

(** What the elastic and von Mises laws show: the trace of the stress from before the increment, positive in tension;
    the elastic_time and Drucker-Prager rate laws show it positive in compression. *)
Theorem C76_values : forall P S0 S ip (p p' : particle R) (G G' : grid R), apply_law P S0 S ip p G = Ok (p', G') ->
  (s_law S = Elastic \/ s_law S = VonMises -> ppressure p' = tr3 (pstress p) / 3 /\ psigmav p' = yy (pstress p) /\
     psigmah p' = xx (pstress p) /\ pgammadot p' = frob (deviator (pdstrain p))) /\
  (s_law S = ElasticTime -> ppressure p' = - tr3 (pstress p) / 3 /\ psigmav p' = - yy (pstress p) /\
     psigmah p' = - xx (pstress p) /\ pgammadot p' = frob (deviator (pdstrain p))) /\
  (s_law S = DpRate -> shown (p_dt P) DpRate Fpressure p' = - (xx (pstress p) + yy (pstress p)) / 2 /\
     shown (p_dt P) DpRate Fdev p' = in_plane_q (pstress p)).
Proof. exact p_C76_values. Qed.
Print Assumptions C76_values.

Example C76_values_example : forall l, In l [Elastic; VonMises; ElasticTime; DpRate] ->
  exists P S (p p' : particle R) (G G' : grid R), s_law S = l /\ apply_law P S S 0 p G = Ok (p', G') /\ tr3 (pstress p) = 5.
Proof. exact x_C76_values. Qed.

(** Hence "pressure" has no single sign convention: under one and the same stress the elastic law shows a positive
    and the elastic_time law a negative value. *)
Theorem C76_sign_refuted : ~ forall P S0 S1 S2 ip (p p1 p2 : particle R) (G G1 G2 : grid R),
  apply_law P S0 S1 ip p G = Ok (p1, G1) -> apply_law P S0 S2 ip p G = Ok (p2, G2) ->
  s_law S1 = Elastic -> s_law S2 = ElasticTime -> 0 <= ppressure p1 -> 0 <= ppressure p2.
Proof. exact p_C76_sign_refuted. Qed.
Print Assumptions C76_sign_refuted.

(** A step of an elastic or von Mises body leaves in the pressure field, at every node, the mass-weighted sum of the
    mean stress the points had before the step: the field lags one step behind the stress. *)
Theorem C76_pressure : forall uf fill (s s' : state R), proper (pG (sP s)) -> grid_ok (pG (sP s)) (sG s) -> shut (sP s) ->
  all_live (sL s) (fun ph p => in_dom (pG (sP s)) (px p)) ->
  (forall ph, In ph (sL s) -> s_law (ph_sol ph) = Elastic \/ s_law (ph_sol ph) = VonMises) ->
  time_march uf fill s = Ok s' -> forall k,
  nth k (f_pressure (sG s')) 0 =
    psum (sL s) (fun _ p => hat (pG (sP s)) (px p) k * pm p * (tr3 (pstress p) / 3)).
Proof. exact p_C76_pressure. Qed.
Print Assumptions C76_pressure.

Example C76_pressure_example : forall uf fill, exists s s' : state R, proper (pG (sP s)) /\ grid_ok (pG (sP s)) (sG s) /\ shut (sP s) /\
  all_live (sL s) (fun ph p => in_dom (pG (sP s)) (px p)) /\
  (forall ph, In ph (sL s) -> s_law (ph_sol ph) = Elastic \/ s_law (ph_sol ph) = VonMises) /\
  time_march uf fill s = Ok s' /\
  psum (sL s) (fun _ p => hat (pG (sP s)) (px p) 0 * pm p * (tr3 (pstress p) / 3)) <> 0.
Proof. exact x_C76_pressure. Qed.
