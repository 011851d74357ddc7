(** * The energy table has a row for every step: C123.
    Statements only; the proofs are in ThmRecord.v. *)
From Coq Require Import ZArith Reals List Bool Arith Lra Lia.
From RecordUpdate Require Import RecordUpdate.
From Verif Require Import State NumR Spec LibList LibR ModelGrid ModelConstit ModelParticle ModelMPList ModelIntegr
  ModelMain ModelRecord ProofsGrid ProofsMap ProofsP2G ProofsInOut Concrete ThmMapping ThmInOut ThmLoop ThmRun ThmBalance ThmBalance ThmStep ThmCasesStep.
Import ListNotations.
Local Existing Instance Num_R.
From Verif Require Import ThmRecord.
Local Open Scope R_scope.

(** In exact arithmetic: a run from time zero with a fixed time step fills the table.  Every row is written exactly once, in
    the order of the steps, with the time of its step, and the table has no row more. *)
Theorem C123_rows : forall uf fill fuel (s s' : state R) tr tbl row, main_loop uf fill fuel s = Some (Ok (s', tr)) ->
  p_dynamic (sP s) = false -> 0 < p_dt (sP s) -> p_t (sP s) = 0 -> 0 <= p_tf (sP s) -> p_tstep (sP s) = 0%Z -> energy_table (sP s) = Ok tbl ->
  exists n, length tbl = n /\ record row tbl tr = Ok (map (fun k => row (Z.of_nat k) (INR k * p_dt (sP s))) (seq 0 n)) /\
  (forall k, (k < n)%nat -> INR k * p_dt (sP s) <= p_tf (sP s)) /\ p_tf (sP s) < INR n * p_dt (sP s).
Proof. exact p_C123_rows. Qed.
Print Assumptions C123_rows.

(** What [draw_energy] draws for the rows of [measure_elastic_energy]: the three energies at their time and their sum. *)
Theorem C123_drawn : forall l : list (R * R * R * R), draw_energy (map (fun r => let '(t, K, U, W) := r in [t; K; U; W]) l) =
  map (fun r => let '(t, K, U, W) := r in (t, [K; U; W; K + U + W])) l.
Proof. exact p_C123_drawn. Qed.
Print Assumptions C123_drawn.

(** Two points in a box, steps of 1/10 until time one. *)
Example C123_rows_example : forall fill, exists (s s' : state R) tr tbl fuel, main_loop no_loads fill fuel s = Some (Ok (s', tr)) /\
  p_dynamic (sP s) = false /\ 0 < p_dt (sP s) /\ p_t (sP s) = 0 /\ 0 <= p_tf (sP s) /\ p_tstep (sP s) = 0%Z /\ energy_table (sP s) = Ok tbl /\
  length (concat (map live (sL s))) = 2%nat.
Proof. exact x_C123_rows. Qed.
