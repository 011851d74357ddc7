(** * Segregation: concrete runs
    Statements only; the proofs are in ThmSegQ.v. *)
From Coq Require Import ZArith List Bool Arith Lia Reals Lra QArith.
From Verif Require Import State NumQ ModelGrid ModelIntegr Concrete.
Import ListNotations.
From Verif Require Import ThmSegQ.
Local Open Scope R_scope.

(** Fractions that sum to one at every node get increments that do not sum to
    zero over the classes. *)
Theorem C39_sum_refuted : exists P G A, Forall valid_row (g_phi G) /\ length (g_phi G) = nodes (pG P) /\
  KT0 (T := Q) P G = Ok A /\ exists m, (m < nodes (pG P))%nat /\ ~ (lsum (nth m A []) == 0)%Q.
Proof. exact p_C39_sum_refuted. Qed.
Print Assumptions C39_sum_refuted.

(** The conservation of C38 is not that of a zero field. *)
Example C38_rows_example : exists P G A, KT0 (T := Q) P G = Ok A /\ ~ (nth 0 (nth 5 A []) 0 == 0)%Q /\ ~ (nth 0 (nth 6 A []) 0 == 0)%Q /\
  (nth 0 (nth 4 A []) 0 + nth 0 (nth 5 A []) 0 + nth 0 (nth 6 A []) 0 + nth 0 (nth 7 A []) 0 == 0)%Q.
Proof. exact x_C38_rows. Qed.

(** With walls on all four sides diffusion does not conserve a size class. *)
Theorem C40_conservation_refuted : exists P rho_s G A, Forall valid_row (g_phi G) /\ 
  (exists G0, grid_init ex_gridp ex_box = Ok G0 /\ btot G = btot G0) /\
  Diffusion (T := Q) P rho_s G = Ok A /\ ~ (lsum (map (fun r => nth 0 r 0) A) == 0)%Q.
Proof. exact p_C40_conservation_refuted. Qed.
Print Assumptions C40_conservation_refuted.
