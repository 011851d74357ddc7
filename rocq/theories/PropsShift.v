(** * Moving the whole simulation: C81.
    Statements only; the proofs are in ThmShift.v. *)
From Coq Require Import ZArith List Bool Arith Lia Reals Lra String.
From Verif Require Import State NumR Spec LibList LibR ModelGrid ModelConstit ModelParticle ModelMPList ModelIntegr ModelMain ProofsGrid ProofsMap ProofsP2G SpecStep ProofsHist Concrete ProofsShift ThmGeo ThmMapping ThmStep ThmInOut.
Import ListNotations.
From Verif Require Import ThmShift.
Local Open Scope R_scope.

(** One step of the shifted simulation is the shifted step, with the same exception if there is one; all walls, laws and
    options except inlets are covered. *)
Theorem C81_step : forall a b uf fill (s : state R), (forall P, uf (shP a b P) = uf P) -> movable b s ->
  time_march uf fill (shS a b s) = rmap (shS a b) (time_march uf fill s).
Proof. exact p_C81_step. Qed.
Print Assumptions C81_step.

(** A step of a moving body in a box, moved by a large distance: no exception is involved. *)
Example C81_step_example : exists (s s' : state R), movable (-7) s /\ time_march (fun P => p_loads P) (fun _ l => l) s = Ok s' /\
  time_march (fun P => p_loads P) (fun _ l => l) (shS 1000 (-7) s) = Ok (shS 1000 (-7) s') /\ sL s <> shL 1000 (-7) (sL s).
Proof. exact x_C81_step. Qed.

(** The whole run: however many passes, the shifted simulation ends in the shifted state, after the same calls of the
    output hooks at the same times, or with the same exception. *)
Theorem C81_run : forall a b uf fill, (forall P, uf (shP a b P) = uf P) -> forall fuel (s : state R), movable b s ->
  main_loop uf fill fuel (shS a b s) = option_map (rmap (pr (shS a b) (fun tr => tr))) (main_loop uf fill fuel s).
Proof. exact p_C81_run. Qed.
Print Assumptions C81_run.

(** Instance: C81_run_example in PropsCasesMore.v. *)

(** The grid built for the shifted extents is the shifted grid. *)
Theorem C81_grid : forall a b (P : gridp R) B, grid_init (shg a b P) B = rmap (shG a b) (grid_init P B).
Proof. exact p_C81_grid. Qed.
Print Assumptions C81_grid.

(** Instance: C81_grid_example in PropsCasesMore.v. *)

Theorem C81_points : forall a b (P : params R) sols, b = 0 \/ p_flow P = FNone ->
  mplist_init (shP a b P) (map (shc a b) sols) = rmap (shL a b) (mplist_init P sols).
Proof. exact p_C81_points. Qed.
Print Assumptions C81_points.

Example C81_points_example : exists L, p_flow (ex_params (T := R) ex_bounds) = FNone /\ mplist_init (ex_params (T := R) ex_bounds) [(ex_solid Elastic, v0, [(1, 1, None)])] = Ok L /\
  exists L', mplist_init (shP 5 3 (ex_params ex_bounds)) [(ex_solid Elastic, v0, [(1 + 5, 1 + 3, None)])] = Ok L' /\ L' = shL 5 3 L.
Proof. exact x_C81_points. Qed.

(** An inlet at the top puts its points at the horizontal coordinate [(x_M - x_m)/2], wherever the domain starts: in a
    shifted domain the new points are not the shifted ones.  The points themselves are the same in both runs. *)
Theorem C81_inlet_refuted : exists (P : params R) L L1 L2, inlet_top_f P L = Ok L1 /\ inlet_top_f (shP 10 0 P) (shL 10 0 L) = Ok L2 /\
  L2 <> shL 10 0 L1 /\ map (fun ph => map (fun p => vx (px p)) (ph_pts ph)) L2 = map (fun ph => map (fun p => vx (px p)) (ph_pts ph)) L1.
Proof. exact p_C81_inlet_refuted. Qed.
Print Assumptions C81_inlet_refuted.
