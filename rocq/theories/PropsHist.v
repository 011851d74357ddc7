(** * Histories: particle bookkeeping, mass, symmetry, independence of the old grid: C17, C33, C34, C52.
    Statements only; the proofs are in ThmHist.v. *)
From Coq Require Import ZArith Reals List Bool Arith Lra Lia.
From Verif Require Import State NumR Spec LibList LibR ModelGrid ModelConstit ModelParticle ModelMPList ModelIntegr
  ModelMain SpecStep ProofsGrid ProofsMap ProofsP2G ProofsLaws ProofsSym ProofsInOut ProofsHist Concrete
  ThmMapping ThmLaws ThmInOut.
Import ListNotations.
From Verif Require Import ThmHist.
Local Open Scope R_scope.

(** [P.S[p].n] is the number of points of the phase after any number of steps,
    whatever enters or leaves ... *)
Theorem C33_count : forall (T : Type) (N : Num T) uf fill (s s' : state T), counted (sL s) -> reach uf fill s s' ->
  counted (sL s') /\ length (sL s') = length (sL s).
Proof. exact p_C33_count. Qed.
Print Assumptions C33_count.

(** Instance: C33_count_example in PropsRun.v. *)

(** ... and it is when the simulation starts. *)
Theorem C33_initial : forall (T : Type) (N : Num T) (P : params T) sols L, mplist_init P sols = Ok L -> counted L.
Proof. exact p_C33_initial. Qed.
Print Assumptions C33_initial.

(** Instance: C33_initial_example in PropsCasesStep.v. *)

(** After any number of steps, the points of a phase are some of those it had
    (all, without outlets), with the volume and mass they had, followed by
    points that entered (none, without inlets), with the volume and mass they
    entered with. *)
Theorem C34_mass_and_volume : forall (T : Type) (N : Num T) uf fill (s s' : state T), counted (sL s) -> reach uf fill s s' ->
  Forall2 (fun ph ph' => ph_sol ph' = ph_sol ph /\
    exists sel kept new, subseq sel (ph_pts ph) /\ ph_pts ph' = kept ++ new /\
      Forall2 (same_body (ph_sol ph)) sel kept /\ Forall (entering (pG (sP s)) (ph_sol ph)) new /\
      (outlet_left (pB (sP s)) = false -> outlet_bottom (pB (sP s)) = false -> sel = ph_pts ph) /\
      (inlet_right (pB (sP s)) = false -> inlet_top (pB (sP s)) = false -> new = []))
    (sL s) (sL s').
Proof. exact p_C34_mass_and_volume. Qed.
Print Assumptions C34_mass_and_volume.

(** Instance: C34_mass_and_volume_example in PropsCasesStep.v. *)

(** In a closed system the total mass never changes. *)
Theorem C34_total_mass : forall uf fill (s s' : state R), counted (sL s) -> reach uf fill s s' ->
  outlet_left (pB (sP s)) = false -> outlet_bottom (pB (sP s)) = false ->
  inlet_right (pB (sP s)) = false -> inlet_top (pB (sP s)) = false ->
  (forall ph, In ph (sL s) -> s_law (ph_sol ph) <> ElasticTime) ->
  psum (sL s') (fun _ p => pm p) = psum (sL s) (fun _ p => pm p) /\
  psum (sL s') (fun _ p => pV p) = psum (sL s) (fun _ p => pV p).
Proof. exact p_C34_total_mass. Qed.
Print Assumptions C34_total_mass.

(** Instance: C34_total_mass_example in PropsRun.v. *)

(** After any number of steps from any state whose stresses are symmetric, for
    every law, every stress is symmetric. *)
Theorem C17_history : forall uf fill (s s' : state R), counted (sL s) -> reach uf fill s s' ->
  (forall ph p, In ph (sL s) -> In p (ph_pts ph) -> all_sym p) ->
  forall ph p, In ph (sL s') -> In p (ph_pts ph) -> symmetric (pstress p).
Proof. exact p_C17_history. Qed.
Print Assumptions C17_history.

(** Instance: C17_history_example in PropsRun.v. *)

(** A run from the constructed list of points needs no assumption. *)
Theorem C17_run : forall uf fill P G sols L s', mplist_init P sols = Ok L -> reach uf fill (mkState P G L) s' ->
  forall ph p, In ph (sL s') -> In p (ph_pts ph) -> symmetric (pstress p).
Proof. exact p_C17_run. Qed.
Print Assumptions C17_run.

(** Instance: C17_run_example in PropsCasesStep.v. *)

(** A step reads nothing from the old grid but its geometry and masks.  (The
    arrays [phim], [phi] exist only when grains segregate; the model has them
    always.) *)
Theorem C52_old_grid_irrelevant : forall (T : Type) (N : Num T) uf fill P (L : list (phase T)) G G', same_mesh G G' ->
  (p_seg P = false -> g_phim G = g_phim G' /\ g_phi G = g_phi G') ->
  time_march uf fill (mkState P G L) = time_march uf fill (mkState P G' L).
Proof. exact p_C52_old_grid_irrelevant. Qed.
Print Assumptions C52_old_grid_irrelevant.

(** Instance: C52_old_grid_irrelevant_example in PropsRun.v. *)
