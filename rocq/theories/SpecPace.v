(** * Specification of a run that chooses its own time steps.

    The scheme of SpecLocal.v, with the time step of each pass taken from the speeds of the nodes at the end of the pass
    before: a fraction of the time in which the fastest node crosses a tenth of a cell, or of the shortest critical time of
    the materials.  Nothing here refers to the functions of the model. *)
From Coq Require Import ZArith Reals List Bool Arith.
From RecordUpdate Require Import RecordUpdate.
From Verif Require Import State NumR Spec SpecLaws SpecScheme SpecLocal.
Import ListNotations.
Local Open Scope R_scope.

Section Pace.
  Context (E : ambient).
  (** Momentum of a node at the end of a step; [B1] are the strained points. *)
  Definition y_mom (B B1 : list point) (a : axis) (k : nat) : R :=
    match a, a_belt E k with
    | AX, Some w => w * z_mass E B k
    | _, _ => a_open E a k * (Rsum (map (fun q => z_m q * comp a (z_v q) * hat (a_P E) (z_x q) k) B)
                              + a_dt E * (a_damp E * (z_force E B1 a k + a_load E a k * z_mass E B k)))
    end.
  (** Its speed along one axis.  Nodes that are lighter than the tolerance have one too. *)
  Definition y_speed (B B1 : list point) (a : axis) (k : nat) : R :=
    if Req_EM_T (z_mass E B k) 0 then 0 else Rabs (y_mom B B1 a k / z_mass E B k).
  (** The largest speed. *)
  Definition y_fast (B : list point) : R :=
    let B1 := map (z_strained E B) B in
    fold_right Rmax 0 (map (fun k => Rmax (y_speed B B1 AX k) (y_speed B B1 AY k)) (seq 0 (a_nodes E))).
End Pace.

(** The time step: [c] is the Courant number, [w] and [h] are the sides of a cell, [ts] the critical times. *)
Definition y_pace (c w h : R) (ts : list R) (fast : R) : R := c * fold_right Rmin (1 / 10 * Rmin w h / fast) ts.

Definition side (o : option R) : R := match o with Some w => w | None => 0 end.
(** The clock after a pass. *)
Definition y_clock (uf : params R -> loads R) (ts : list R) (fast : R) (P : params R) : params R :=
  (ticked uf P) <| p_dt := y_pace (p_CFL P) (side (pdx (pG P))) (side (pdy (pG P))) ts fast |>.
(** [n] passes: the clock and the points. *)
Fixpoint y_run (uf : params R -> loads R) (rho : R) (ts : list R) (n : nat) (P : params R) (G : grid R) (B : list point)
  : params R * list point :=
  match n with
  | O => (P, B)
  | Datatypes.S n => let E := ambient_of P rho (uf P) G in y_run uf rho ts n (y_clock uf ts (y_fast E B) P) G (z_step E B)
  end.
(** The critical times of the materials. *)
Definition crits (L : list (phase R)) : list R :=
  flat_map (fun ph => match s_crit (ph_sol ph) with Some c => [c] | None => [] end) L.
