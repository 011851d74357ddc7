(** * Rounding: a negative mass. *)
From Coq Require Import ZArith List Bool Floats.SpecFloat.
From RecordUpdate Require Import RecordUpdate.
From Verif Require Import Num State NumF Spec LibList ModelGrid ModelConstit ModelParticle ModelMPList ModelMain Concrete.
Import ListNotations.
Local Open Scope Z_scope.

Definition speck_x : binary64 := Fnorm (2 ^ 53 - 1) (- 53).
Definition speck_params : params binary64 := ex_params ex_bounds <| pG := ex_gridp <| x_M := Fnorm 2 0 |> <| nx := 7%nat |> |>.
Definition speck : list (phase binary64) := [mkPhase (ex_solid Rigid) 1 v0 [ex_particle speck_x (Fnorm 1 (- 1)) v0 m0]].

(** The allowance in C114_floor is needed: positive masses can give a node a negative mass.  In binary64, with seven nodes
    from 0 to 2, a point of mass 2 at 1 - 2^-53, the number below the fourth node, is put into the cell to the right of that
    node, and the fifth node gets a negative mass.  In exact arithmetic no node does. *)
Lemma p_C114_negative : exists (G G' : grid binary64) L1 L2,
  grid_init (pG speck_params) ex_bounds = Ok G /\ nltb n0 speck_x = true /\ nltb speck_x n1 = true /\
  ref_nodes speck_params (wipe speck_params G) speck = Ok L1 /\ basis_all (wipe speck_params G) L1 = Ok L2 /\
  p2g_all speck_params L2 (wipe speck_params G) = Ok G' /\
  forallb (fun ph => forallb (fun p => nltb n0 (pm p)) (ph_pts ph)) speck = true /\
  neqb (nth 3 (gX G) n0) n1 = true /\ nltb (nth 4 (gm G') n0) n0 = true.
Proof.
  assert (K : match grid_init (pG speck_params) ex_bounds with
              | Ok G => match ref_nodes speck_params (wipe speck_params G) speck with
                        | Ok L1 => match basis_all (wipe speck_params G) L1 with
                                   | Ok L2 => match p2g_all speck_params L2 (wipe speck_params G) with
                                              | Ok G' => neqb (nth 3 (gX G) n0) n1 && nltb (nth 4 (gm G') n0) n0
                                              | Err _ => false end
                                   | Err _ => false end
                        | Err _ => false end
              | Err _ => false end = true) by (vm_compute; reflexivity).
  destruct (grid_init (pG speck_params) ex_bounds) as [G|e]; [|discriminate].
  destruct (ref_nodes speck_params (wipe speck_params G) speck) as [L1|e] eqn:E1; [|discriminate].
  destruct (basis_all (wipe speck_params G) L1) as [L2|e] eqn:E2; [|discriminate].
  destruct (p2g_all speck_params L2 (wipe speck_params G)) as [G'|e] eqn:E3; [|discriminate].
  apply andb_true_iff in K. destruct K as [K1 K2]. exists G, G', L1, L2.
  split; [reflexivity|]. split; [vm_compute; reflexivity|]. split; [vm_compute; reflexivity|]. split; [exact E1|]. split; [exact E2|]. split; [exact E3|].
  split; [vm_compute; reflexivity|]. split; [exact K1|exact K2].
Qed.
