(** * The loads that the input scripts prescribe: C97, C98
    Statements only; the proofs are in ThmLoads.v. *)
From Coq Require Import ZArith Reals List Bool Arith Lra Lia.
From Verif Require Import State NumR Spec SpecLaws SpecStep SpecScheme SpecRing LibList LibR ModelGrid ModelInputs ModelConstit ModelParticle ModelMPList
  ModelIntegr ModelMain ProofsGrid ProofsMap ProofsP2G ProofsWalls ProofsLaws ProofsInOut ProofsHist Concrete
  ThmMapping ThmWalls ThmLaws ThmInOut ThmHist ProofsStep ProofsPoints ThmStep ThmBalance ThmEnergy ThmFall ThmGeo ProofsScheme ThmScheme.
Import ListNotations.
From Verif Require Import ThmLoads.
Local Open Scope R_scope.

(** The ramp starts from nothing, never overshoots, never goes back, never
    changes sign and comes as near to its target as one likes. *)
Theorem C97_ramp : forall M t_c, 0 < t_c ->
  ramp M 0 t_c = 0 /\
  (forall t, Rabs (ramp M t t_c) <= Rabs M /\ 0 <= M * ramp M t t_c) /\
  (forall t t', 0 <= t <= t' -> Rabs (ramp M t t_c) <= Rabs (ramp M t' t_c)) /\
  (forall eps, 0 < eps -> exists T, forall t, T <= t -> Rabs (ramp M t t_c - M) < eps).
Proof. exact p_C97_ramp. Qed.
Print Assumptions C97_ramp.

(** Instance: C97_ramp_example in PropsCases.v. *)

(** Over a run with the ramp: the gravity of the [n]-th pass is that of its
    time, gravity never decreases in size from one pass to the next and never
    exceeds P.max_g. *)
Theorem C97_run : forall fill n t_c (s s1 s2 : state R) tr tr1 tr2, 0 < t_c -> 0 <= p_t (sP s) -> 0 <= p_dt (sP s) -> p_dynamic (sP s) = false ->
  after (ramp_forces t_c) fill (Datatypes.S n) s tr = Ok (s1, tr1) -> after (ramp_forces t_c) fill (Datatypes.S (Datatypes.S n)) s tr = Ok (s2, tr2) ->
  ld_g (p_loads (sP s1)) = ramp (p_max_g (sP s)) (p_t (sP s) + INR n * p_dt (sP s)) t_c /\
  Rabs (ld_g (p_loads (sP s1))) <= Rabs (ld_g (p_loads (sP s2))) <= Rabs (p_max_g (sP s)).
Proof. exact p_C97_run. Qed.
Print Assumptions C97_run.

(** The unit tests that drive a sample by its surfaces: both loads rise together
    to P.max_q at [t_c]; from then on the sum stays the same while the horizontal
    load rises and the vertical one falls at the same rate; no jump. *)
Theorem C97_path : forall k max_q (P : params R), 0 < k -> 0 < p_tf P -> let t_c := p_tf P / k in let l := dp_forces k max_q P in
  ld_g l = 0 /\ ld_theta l = ld_theta (p_loads P) /\
  (p_t P <= t_c -> ld_qv l = max_q * (p_t P / t_c) /\ ld_qh l = max_q * (p_t P / t_c)) /\
  (t_c <= p_t P -> ld_qv l + ld_qh l = 2 * max_q /\ ld_qh l - ld_qv l = 2 * max_q * (p_t P / t_c - 1)).
Proof. exact p_C97_path. Qed.
Print Assumptions C97_path.

(** Instance: C97_path_example in PropsCases.v. *)

(** dp_rate_unit_test ends when the vertical load vanishes; pouliquen_unit_test
    is the same path. *)
Theorem C97_rate : forall max_q (P : params R), 0 < p_tf P -> 0 <= max_q -> 0 <= p_t P <= p_tf P ->
  0 <= ld_qv (dp_forces 2 max_q P) <= max_q /\ 0 <= ld_qh (dp_forces 2 max_q P) <= 2 * max_q /\ pouliquen_forces max_q P = dp_forces 2 max_q P.
Proof. exact p_C97_rate. Qed.
Print Assumptions C97_rate.

(** Instance: C97_rate_example in PropsCases.v. *)

(** In dp_unit_test the turning point is at a tenth of the run: after a fifth of
    it the vertical load is negative, it pulls at the sample, up to eight times
    P.max_q in the end. *)
Theorem C97_tension_refuted : exists max_q (P : params R), 0 < p_tf P /\ 0 < max_q /\ 0 <= p_t P <= p_tf P /\ ld_qv (dp_forces 10 max_q P) < 0.
Proof. exact p_C97_tension_refuted. Qed.
Print Assumptions C97_tension_refuted.

Theorem C97_tension : forall max_q (P : params R), 0 < p_tf P -> 0 < max_q ->
  (ld_qv (dp_forces 10 max_q P) < 0 <-> p_tf P / 5 < p_t P \/ p_t P < 0) /\ (p_t P = p_tf P -> ld_qv (dp_forces 10 max_q P) = - 8 * max_q).
Proof. exact p_C97_tension. Qed.
Print Assumptions C97_tension.

(** Instance: C97_tension_example in PropsCases.v. *)

(** triaxial, brazillian, macro and vm_unit_test raise P.q slowly from zero, slope_stab
    keeps it zero, and the log prints it.  But nothing reads P.q: the loads on
    the surfaces are P.q_v and P.q_h, which initialise.py sets to P.max_q and
    these scripts leave alone.  The full load acts from the first step on, at
    every time, whatever P.q says. *)
Theorem C98_full : forall t_c n (P : params R) max_g max_q theta, p_loads P = first_loads max_g max_q theta ->
  let l := ramp_forces t_c (clock (ramp_forces t_c) n P) in ld_qv l = max_q /\ ld_qh l = max_q.
Proof. exact p_C98_full. Qed.
Print Assumptions C98_full.

(** Instance: C98_full_example in PropsCases.v. *)

Theorem C98_refuted : exists t_c max_g max_q (P : params R), 0 < t_c /\ p_loads P = first_loads max_g max_q 0 /\ p_t P = 0 /\
  ramp_q max_q t_c P = 0 /\ slope_stab_q P = 0 /\ ld_qv (ramp_forces t_c P) = 1000 /\ ld_qh (ramp_forces t_c P) = 1000.
Proof. exact p_C98_refuted. Qed.
Print Assumptions C98_refuted.
