(** * Complete runs: termination of the loop, and runs that meet the hypotheses on histories
    Statements only; the proofs are in ThmRun.v. *)
From Coq Require Import ZArith List Bool Arith Lia Reals Lra.
From Verif Require Import State NumR LibR LibList Spec SpecStep ModelGrid ModelConstit ModelParticle ModelMPList
  ModelIntegr ModelMain ProofsGrid ProofsMap ProofsP2G ProofsWalls ProofsLaws ProofsSym ProofsInOut ProofsHist Concrete
  ThmMapping ThmWalls ThmLaws ThmInOut ThmLoop ThmHist ProofsStep ThmStep ProofsPoints ThmBalance.
Import ListNotations.
From Verif Require Import ThmRun.
Local Open Scope R_scope.

(** With a positive time step the loop ends, at the latest with an exception,
    after at most the number of passes of C42_main_loop. *)
Theorem C42_fuel_suffices : forall uf fill (s : state R), p_dynamic (sP s) = false -> 0 < p_dt (sP s) ->
  let t := p_t (sP s) in let tf := p_tf (sP s) in
  forall fuel, (Datatypes.S (Z.to_nat (Rfloor ((tf - t) / p_dt (sP s)))) <= fuel)%nat ->
  exists r, main_loop uf fill fuel s = Some r.
Proof. exact p_C42_fuel_suffices. Qed.
Print Assumptions C42_fuel_suffices.

Theorem C42_deterministic : forall (T : Type) (N : Num T) uf fill f1 f2 (s : state T) r1 r2,
  main_loop uf fill f1 s = Some r1 -> main_loop uf fill f2 s = Some r2 -> r1 = r2.
Proof. exact p_C42_deterministic. Qed.
Print Assumptions C42_deterministic.

(** Instance: C42_deterministic_example in PropsCasesStep.v. *)

Theorem C42_no_progress : forall uf fill fuel (s : state R) x, p_dynamic (sP s) = false -> p_dt (sP s) <= 0 ->
  p_t (sP s) <= p_tf (sP s) -> main_loop uf fill fuel s <> Some (Ok x).
Proof. exact p_C42_no_progress. Qed.
Print Assumptions C42_no_progress.

(** Instance: C42_no_progress_example in PropsCasesStep.v. *)

(** A closed box that respects the CFL condition runs to the end. *)
Theorem C42_completes : forall uf fill s, boxed s -> runnable s -> cfl_held uf fill s -> 0 < p_dt (sP s) ->
  exists fuel s' tr, main_loop uf fill fuel s = Some (Ok (s', tr)).
Proof. exact p_C42_completes. Qed.
Print Assumptions C42_completes.

(** Instance: C42_completes_example in PropsCasesStep.v. *)

Example C42_main_loop_example : forall fill, exists fuel s s' tr, main_loop no_loads fill fuel s = Some (Ok (s', tr)) /\
  p_dynamic (sP s) = false /\ 0 < p_dt (sP s) /\ Rfloor ((p_tf (sP s) - p_t (sP s)) / p_dt (sP s)) = 10%Z.
Proof. exact x_C42_main_loop. Qed.

Example C42_fuel_suffices_example : forall fill, exists s : state R, p_dynamic (sP s) = false /\ 0 < p_dt (sP s) /\ p_t (sP s) < p_tf (sP s) /\
  (length (concat (map live (sL s))) = 2)%nat /\ forall e, main_loop no_loads fill 11 s <> Some (Err e).
Proof. exact x_C42_fuel_suffices. Qed.

Example C43_once_example : forall fill, exists fuel s s' tr, main_loop no_loads fill fuel s = Some (Ok (s', tr)) /\
  p_dynamic (sP s) = false /\ p_t (sP s) = 0 /\ p_tstep (sP s) = 0%Z /\ 0 < p_dt (sP s) < p_savetime (sP s) /\
  (INR 1 + 1) * p_savetime (sP s) <= p_tf (sP s).
Proof. exact x_C43_once. Qed.

Example C33_count_example : forall uf fill, exists s s' : state R, counted (sL s) /\ reach uf fill s s' /\ s' <> s /\
  (length (concat (map live (sL s))) = 2)%nat.
Proof. exact x_C33_count. Qed.

Example C34_total_mass_example : forall uf fill, exists s s' : state R, counted (sL s) /\ reach uf fill s s' /\ s' <> s /\
  outlet_left (pB (sP s)) = false /\ outlet_bottom (pB (sP s)) = false /\
  inlet_right (pB (sP s)) = false /\ inlet_top (pB (sP s)) = false /\
  (forall ph, In ph (sL s) -> s_law (ph_sol ph) <> ElasticTime) /\ 0 < psum (sL s) (fun _ p => pm p).
Proof. exact x_C34_total_mass. Qed.

Example C17_history_example : forall uf fill, exists s s' : state R, counted (sL s) /\ reach uf fill s s' /\ s' <> s /\
  (forall ph p, In ph (sL s) -> In p (ph_pts ph) -> all_sym p) /\
  (exists ph p, In ph (sL s) /\ In p (ph_pts ph) /\ pstress p <> m0).
Proof. exact x_C17_history. Qed.

(** Two grids that differ in the masses and momenta left over from an earlier step. *)
Example C52_old_grid_irrelevant_example : exists G G' : grid R, same_mesh G G' /\ gm G <> gm G' /\ gq G <> gq G' /\
  grid_init ex_gridp ex_box = Ok G.
Proof. exact x_C52_old_grid_irrelevant. Qed.
