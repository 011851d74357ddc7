(** * The yield surface of dp and the relaxation of dp_rate: C127, C128.
    Statements only; the proofs are in ThmYield.v. *)
From Coq Require Import ZArith List Bool Arith Lia Reals Lra.
From RecordUpdate Require Import RecordUpdate.
From Verif Require Import State NumR LibR LibList Spec SpecLaws ModelGrid ModelConstit ModelParticle ModelMPList ModelMain ProofsGrid ProofsMap ProofsLaws ProofsHist Concrete ThmLaws ThmDp.
Import ListNotations.
Local Existing Instance Num_R.
From Verif Require Import ThmYield.
Local Open Scope R_scope.

(** On the yield surface q = mu p the yield function changes at exactly this
    rate under the law dp, whatever the exponent s. *)
Theorem C127_rate : forall K g n mu e y t, 0 < mu -> 0 < g -> 0 < pr2 (y t) -> qq2 (y t) = mu * pr2 (y t) ->
  moves (fun s => fst (dp_guts K g n mu mu e s)) y t ->
  derivable_pt_lim (fun v => qq2 (y v) - mu * pr2 (y v)) t
    (loading K g mu e (y t) - (3 * g + mu ^ 2 * K) * (Rabs (loading K g mu e (y t)) / (3 * g + mu ^ 2))).
Proof. exact p_C127_rate. Qed.
Print Assumptions C127_rate.

(** Under loading the stress stays on the yield surface only if K is 1: the
    denominator of the multiplier (constit.py:179) lacks a factor K.  For the
    K of any real material the point leaves the yield surface inwards, however
    hard it is sheared. *)
Theorem C127_consistent_refuted : forall K g n mu e y t, 0 < mu -> 0 < g -> 0 < pr2 (y t) -> qq2 (y t) = mu * pr2 (y t) ->
  moves (fun s => fst (dp_guts K g n mu mu e s)) y t -> 0 < loading K g mu e (y t) ->
  exists l, derivable_pt_lim (fun v => qq2 (y v) - mu * pr2 (y v)) t l /\ (l = 0 <-> K = 1) /\ (1 < K -> l < 0) /\ (K < 1 -> 0 < l).
Proof. exact p_C127_consistent_refuted. Qed.
Print Assumptions C127_consistent_refuted.

(** A point at yield in pure shear, with a K of 1000: q/p falls although the
    point is sheared on. *)
Example C127_consistent_refuted_example : exists K g n mu e y, 0 < mu /\ 0 < g /\ 0 < pr2 (y 0) /\ qq2 (y 0) = mu * pr2 (y 0) /\
  moves (fun s => fst (dp_guts K g n mu mu e s)) y 0 /\ 0 < loading K g mu e (y 0) /\ 1 < K.
Proof. exact x_C127_consistent_refuted. Qed.

(** Within the yield surface dp_rate is elastic: K times the volume change and
    2G times the shear, and nothing else. *)
Theorem C128_elastic : forall P S0 So MP G MP' G' K g mu beta ts, rate_mat S0 K g mu beta ts -> dp_rate P S0 So MP G = Ok (MP', G') ->
  qq2 (squeeze MP) <= mu * pr2 (squeeze MP) ->
  let tr := xx (pdstrain MP) + yy (pdstrain MP) in
  xx (pdstress MP') = 2 * g * (xx (pdstrain MP) - tr / 2) + K * tr /\ xy (pdstress MP') = 2 * g * xy (pdstrain MP) /\
  yx (pdstress MP') = 2 * g * yx (pdstrain MP) /\ yy (pdstress MP') = 2 * g * (yy (pdstrain MP) - tr / 2) + K * tr.
Proof. exact p_C128_elastic. Qed.
Print Assumptions C128_elastic.

(** Beyond it, a point that is not strained at all loses shear stress and gains
    pressure in every step, by amounts in which the time step does not occur. *)
Theorem C128_rest : forall P S0 So MP G MP' G' K g mu beta ts, rate_mat S0 K g mu beta ts -> dp_rate P S0 So MP G = Ok (MP', G') ->
  strain2 MP = mkM2 0 0 0 0 -> 0 < mu -> 0 < ts -> 0 < pr2 (squeeze MP) -> mu * pr2 (squeeze MP) < qq2 (squeeze MP) ->
  let over := (qq2 (squeeze MP) - mu * pr2 (squeeze MP)) / (pr2 (squeeze MP) * ts) in
  pr2 (gain2 MP') = K * beta * (qq2 (squeeze MP) / (mu * pr2 (squeeze MP))) * over /\ work2 (squeeze MP) (gain2 MP') = - (2 * g * qq2 (squeeze MP) * over).
Proof. exact p_C128_rest. Qed.
Print Assumptions C128_rest.

(** So the speed of the relaxation is not that of the material: with two time
    steps, the stress lost per unit of time differs by the ratio of the steps. *)
Theorem C128_timestep_refuted : forall P S0 So MP G MP1 G1 MP2 G2 K g mu beta ts dt1 dt2, rate_mat S0 K g mu beta ts ->
  dp_rate (P <| p_dt := dt1 |>) S0 So MP G = Ok (MP1, G1) -> dp_rate (P <| p_dt := dt2 |>) S0 So MP G = Ok (MP2, G2) ->
  strain2 MP = mkM2 0 0 0 0 -> 0 < g -> 0 < mu -> 0 < ts -> 0 < pr2 (squeeze MP) -> mu * pr2 (squeeze MP) < qq2 (squeeze MP) -> 0 < dt1 -> 0 < dt2 ->
  pdstress MP1 = pdstress MP2 /\ (work2 (squeeze MP) (gain2 MP1) / dt1 = work2 (squeeze MP) (gain2 MP2) / dt2 <-> dt1 = dt2).
Proof. exact p_C128_timestep_refuted. Qed.
Print Assumptions C128_timestep_refuted.

(** More shear stress than the surface allows, no strain, and any time step. *)
Example C128_timestep_refuted_example : let MP := sheared (mkM3 0 0 0 0 0 0 0 0 0) in
  rate_mat (ex_solid DpRate) 3 2 (1 / 2) 0 1 /\
  (forall dt, exists MP' G', dp_rate (ex_params ex_bounds <| p_dt := dt |>) (ex_solid DpRate) (ex_solid DpRate) MP stiff_grid = Ok (MP', G')) /\
  strain2 MP = mkM2 0 0 0 0 /\ 0 < pr2 (squeeze MP) /\ 1 / 2 * pr2 (squeeze MP) < qq2 (squeeze MP).
Proof. exact x_C128_timestep_refuted. Qed.

(** A small shear stress, in an elastic strain. *)
Example C128_elastic_example : let MP := sheared (mkM3 1 0 0 0 2 0 0 0 0) <| pstress := mkM3 (-1) 0 0 0 (-1) 0 0 0 0 |> in
  rate_mat (ex_solid DpRate) 3 2 (1 / 2) 0 1 /\ qq2 (squeeze MP) <= 1 / 2 * pr2 (squeeze MP).
Proof. exact x_C128_elastic. Qed.
