(** * The stand-alone segregation solver: concrete runs
    Statements only; the proofs are in ThmNewIntQ.v. *)
From Coq Require Import ZArith List Bool Arith Lia QArith.
From Verif Require Import State NumQ ModelGrid ModelIntegr ModelNewInt.
Import ListNotations.
From Verif Require Import ThmNewIntQ.
Local Open Scope Q_scope.

(** The increments that sum to zero in C57 are not all zero. *)
Example C57_euler_example : let d := nEuler (T := Q) 1 (1#4) 4 (qline [1; 1#2; 1#3; 0]) (fun _ => 1) in
  qsum 4 d == 0 /\ ~ d 1%nat == 0 /\ ~ d 2%nat == 0.
Proof. exact x_C57_euler. Qed.

Example C57_rk3_example : let c := nRK3 (T := Q) 1 (1#4) 2 (qline [1#2; 0]) (fun _ => 1) in
  qsum 2 c == (1#2) /\ ~ c 1%nat == 0.
Proof. exact x_C57_rk3. Qed.

(** A velocity that varies along the line creates concentration. *)
Theorem C57_varying_refuted : exists (dx dt : Q) n c v, 0 < dx /\ 0 < dt /\ (forall i, 0 <= c i <= 1) /\ ~ qsum n (nEuler (T := Q) dx dt n c v) == 0.
Proof. exact p_C57_varying_refuted. Qed.
Print Assumptions C57_varying_refuted.

(** The diffusion step does not keep the total. *)
Theorem C57_diffusion_refuted : exists (D dx dt : Q) n c, 0 < D /\ 0 < dx /\ 0 < dt /\ (forall i, 0 <= c i <= 1) /\ ~ qsum n (ndiffusion (T := Q) D dx dt n c) == qsum n c.
Proof. exact p_C57_diffusion_refuted. Qed.
Print Assumptions C57_diffusion_refuted.
