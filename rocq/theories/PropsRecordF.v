(** * The energy table with rounding: C123.
    Statements only; the proofs are in ThmRecordF.v. *)
From Coq Require Import List Bool Arith ZArith Lia.
From Coq Require Import Floats.SpecFloat.
From RecordUpdate Require Import RecordUpdate.
From Verif Require Import State NumF NumF0 ModelGrid ModelParticle ModelMPList ModelMain ModelRecord Concrete.
Import ListNotations.
From Verif Require Import ThmRecordF.
Local Open Scope nat_scope.

(** With rounding the table is too small: steps of 0.1 until 0.6 are seven, the table has six rows, and a hook that writes
    the seventh raises an [IndexError]. *)
Theorem C123_rows_refuted : exists G s' tr tbl, grid_init ex_gridp ex_bounds = Ok G /\
  main_loop unloaded keep 20 (short_run (lit 1 10) (lit 6 10) G) = Some (Ok (s', tr)) /\
  energy_table (sP (short_run (lit 1 10) (lit 6 10) G)) = Ok tbl /\ length tbl = 6 /\ p_tstep (sP s') = 7%Z /\
  forall row, record row tbl tr = Err IndexError.
Proof. exact p_C123_rows_refuted. Qed.
Print Assumptions C123_rows_refuted.

(** Or too large: steps of 0.01 until 0.06 are six, the table has seven rows, and the last row stays empty, so that
    [draw_energy] shows no energy at time zero once more. *)
Theorem C123_empty_refuted : exists G s' tr tbl, grid_init ex_gridp ex_bounds = Ok G /\
  main_loop unloaded keep 20 (short_run (lit 1 100) (lit 6 100) G) = Some (Ok (s', tr)) /\
  energy_table (sP (short_run (lit 1 100) (lit 6 100) G)) = Ok tbl /\ length tbl = 7 /\ p_tstep (sP s') = 6%Z /\
  forall row, exists tbl', record row tbl tr = Ok tbl' /\ nth 6 tbl' [] = [n0; n0; n0; n0].
Proof. exact p_C123_empty_refuted. Qed.
Print Assumptions C123_empty_refuted.
