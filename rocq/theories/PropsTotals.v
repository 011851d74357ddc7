(** * The energies a run reports: C51.
    Statements only; the proofs are in ThmTotals.v. *)
From Coq Require Import ZArith Reals List Bool Arith Lra Lia.
From Verif Require Import State NumR Spec SpecLaws SpecStep LibList LibR ModelGrid ModelConstit ModelParticle ModelMPList
  ModelIntegr ModelMain ProofsGrid ProofsMap ProofsP2G ProofsWalls ProofsLaws ProofsInOut ProofsHist Concrete
  ThmMapping ThmWalls ThmLaws ThmInOut ThmHist ProofsStep ProofsPoints ThmStep ThmBalance.
Import ListNotations.
From Verif Require Import ThmTotals.
Local Open Scope R_scope.

(** The table row of a state: the time, then kinetic, gravitational and elastic energy, each summed over the points of all
    phases. *)
Theorem C51_totals : forall (P : params R) (L : list (phase R)), enough L ->
  all_live L (fun _ p => vx (px p) <> 0 /\ vz (px p) = 0) ->
  exists K U E, measure_energy P L = Ok (p_t P, K, U, E) /\
    K = psum L (fun ph p => pm p * (vx (velocity ph p) * vx (velocity ph p) + vy (velocity ph p) * vy (velocity ph p) + vz (velocity ph p) * vz (velocity ph p)) / 2) /\
    U = psum L (fun _ p => - pm p * ld_g (p_loads P) * (Rabs (vx (px p)) * sin (ld_theta (p_loads P)) + Rabs (vy (px p)) * cos (ld_theta (p_loads P)))) /\
    E = psum L (fun _ p => pV p / 2 * inner (pstress p) (pstrain p)).
Proof. exact p_C51_totals. Qed.
Print Assumptions C51_totals.

(** Two phases: one with a point that is no longer counted, one whose point reads the velocity of its phase. *)
Example C51_totals_example : exists L : list (phase R), enough L /\ all_live L (fun _ p => vx (px p) <> 0 /\ vz (px p) = 0) /\ length L = 2%nat /\
  exists U E, measure_energy (ex_params ex_bounds) L = Ok (0, 5, U, E).
Proof. exact x_C51_totals. Qed.
