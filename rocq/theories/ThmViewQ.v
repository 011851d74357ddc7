(** * The mirror image of points on a line of nodes: C87. *)
From Coq Require Import ZArith QArith List Bool.
From Verif Require Import State Num NumQ NumX ModelGrid ModelConstit ModelParticle ModelMPList ModelIntegr ModelMain Concrete.
Import ListNotations.
Local Open Scope Q_scope.

(** One point at rest at ([x], 1/2) in the domain [0,3] x [0,2], under a stress along x. *)
Definition on_line (x : Q) : list (phase (X Q)) :=
  [mkPhase (ex_solid Elastic) 1 v0 [ex_particle (Fin x) (Fin (1#2)) v0 (mkM3 (Fin 1) (Fin 0) (Fin 0) (Fin 0) (Fin 0) (Fin 0) (Fin 0) (Fin 0) (Fin 0))]].
Definition first_vx (s : state (X Q)) : X Q :=
  match sL s with ph :: _ => match ph_pts ph with p :: _ => match pv p with Own v => vx v | Shared => NaN end | _ => NaN end | _ => NaN end.
(** A run of the mirror image is the mirror image of the run, for all points of the domain: false for points on a vertical
    line of nodes.  Two states that mirror each other, each with one point at rest without gravity and walls: at x = 1 and at x = 2 of
    [0,3].  After one step both points move towards positive x, with the same velocity. *)
Lemma p_C87_on_lines_refuted : exists (G : grid (X Q)) s s' a,
  grid_init (T := X Q) ex_gridp ex_bounds = Ok G /\
  time_march (fun _ => mkLoads n0 n0 n0 n0) (fun _ l => l) (mkState (ex_params ex_bounds) G (on_line 1)) = Ok s /\
  time_march (fun _ => mkLoads n0 n0 n0 n0) (fun _ l => l) (mkState (ex_params ex_bounds) G (on_line 2)) = Ok s' /\
  first_vx s = Fin a /\ first_vx s' = Fin a /\ 0 < a.
Proof.
  eexists. eexists. eexists. eexists. split; [vm_compute; reflexivity|]. split; [vm_compute; reflexivity|].
  split; [vm_compute; reflexivity|]. split; [vm_compute; reflexivity|]. split; vm_compute; reflexivity.
Qed.
