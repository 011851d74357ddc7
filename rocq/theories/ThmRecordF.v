(** * The energy table with rounding: C123. *)
From Coq Require Import List Bool Arith ZArith Lia.
From Coq Require Import Floats.SpecFloat.
From RecordUpdate Require Import RecordUpdate.
From Verif Require Import State NumF NumF0 ModelGrid ModelParticle ModelMPList ModelMain ModelRecord Concrete.
Import ListNotations.
Local Open Scope nat_scope.

(** One elastic point at rest inside the first cell, without loads, and a run from zero to [tf] with steps of [dt]. *)
Definition short_run (dt tf : binary64) (G : grid binary64) : state binary64 :=
  mkState (ex_params ex_bounds <| p_dt := dt |> <| p_tf := tf |>) G
    [mkPhase (ex_solid Elastic) 1 v0 [ex_particle (nofZ 1 / nofZ 2)%num (nofZ 1 / nofZ 2)%num v0 m0]].
Definition unloaded (_ : params binary64) : loads binary64 := mkLoads n0 n0 n0 n0.
Definition keep (_ : list bool) (l : list binary64) := l.

(** With rounding the table is too small: steps of 0.1 until 0.6 are seven, the table has six rows, and a hook that writes
    the seventh raises an [IndexError]. *)
Lemma p_C123_rows_refuted : exists G s' tr tbl, grid_init ex_gridp ex_bounds = Ok G /\
  main_loop unloaded keep 20 (short_run (lit 1 10) (lit 6 10) G) = Some (Ok (s', tr)) /\
  energy_table (sP (short_run (lit 1 10) (lit 6 10) G)) = Ok tbl /\ length tbl = 6 /\ p_tstep (sP s') = 7%Z /\
  forall row, record row tbl tr = Err IndexError.
Proof.
  destruct (grid_init ex_gridp ex_bounds) as [G|] eqn:EG; [|vm_compute in EG; discriminate]. vm_compute in EG. injection EG as <-.
  do 4 eexists. split; [reflexivity|]. split; [vm_compute; reflexivity|]. split; [vm_compute; reflexivity|].
  split; [reflexivity|]. split; [reflexivity|]. intros row. cbn. reflexivity.
Qed.

(** Or too large: steps of 0.01 until 0.06 are six, the table has seven rows, and the last row stays empty, so that
    [draw_energy] shows no energy at time zero once more. *)
Lemma p_C123_empty_refuted : exists G s' tr tbl, grid_init ex_gridp ex_bounds = Ok G /\
  main_loop unloaded keep 20 (short_run (lit 1 100) (lit 6 100) G) = Some (Ok (s', tr)) /\
  energy_table (sP (short_run (lit 1 100) (lit 6 100) G)) = Ok tbl /\ length tbl = 7 /\ p_tstep (sP s') = 6%Z /\
  forall row, exists tbl', record row tbl tr = Ok tbl' /\ nth 6 tbl' [] = [n0; n0; n0; n0].
Proof.
  destruct (grid_init ex_gridp ex_bounds) as [G|] eqn:EG; [|vm_compute in EG; discriminate]. vm_compute in EG. injection EG as <-.
  do 4 eexists. split; [reflexivity|]. split; [vm_compute; reflexivity|]. split; [vm_compute; reflexivity|].
  split; [reflexivity|]. split; [reflexivity|]. intros row. eexists. split; [cbn; reflexivity|]. reflexivity.
Qed.
