(** * Concentrations above one
    Statements only; the proofs are in ThmLimitsQ.v. *)
From Coq Require Import ZArith List Bool Arith Lia Reals Lra QArith.
From Verif Require Import State NumQ ModelGrid ModelIntegr ModelNewInt Concrete ThmSegQ.
Import ListNotations.
From Verif Require Import ThmLimitsQ.
Local Open Scope Q_scope.

(** A profile with room to fall: the step changes it and nothing becomes negative. *)
Example C74_nonneg_example : let c := prof [0; 0; 1#2; 1; 1] in let d := nEuler (T := Q) 1 (1#10) 5 c (fun _ => 1) in
  (forall i, (i < 5)%nat -> 0 <= c i + d i) /\ ~ d 1%nat == 0 /\ ~ d 2%nat == 0.
Proof. exact x_C74_nonneg. Qed.

(** With the Courant number of the main program a step lifts a concentration above one. *)
Theorem C74_range_refuted : exists (dx dt : Q) n c v i, 0 < dx /\ (forall k, (k < n)%nat -> 0 <= c k /\ c k <= 1) /\
  (forall k, v k == 1 \/ v k == - (1)) /\ dt == (1#10) * dx /\ (i < n)%nat /\ 1 < c i + nEuler dx dt n c v i.
Proof. exact p_C74_range_refuted. Qed.
Print Assumptions C74_range_refuted.

(** So does a step of the program itself (RK3 and diffusion). *)
Theorem C74_main_refuted : exists (dx dt D : Q) n c i, 0 < dx /\ 0 < D /\ (forall k, (k < n)%nat -> 0 <= c k /\ c k <= 1) /\
  dt == (1#10) * dx /\ (i < n)%nat /\ 1 < nrun dx dt D n (fun _ => - (1)) 1 c i.
Proof. exact p_C74_main_refuted. Qed.
Print Assumptions C74_main_refuted.

(** KT: valid fractions of two sizes, a tenth of a cell per step, and still a
    fraction above one. *)
Theorem C75_range_refuted : exists (dt dx c : Q) ss n phi g k i, 0 < dt /\ 0 < dx /\ Forall (fun s => 0 < s) ss /\
  (forall j, (j < n)%nat -> valid_row (phi j)) /\ (k < length ss)%nat /\ (i < n)%nat /\
  (forall j, (j < n)%nat -> dt * Qabs.Qabs (c * (1 / (inv_size ss (phi j) * nth k ss 0) - 1) * g j) <= (1#4) * dx) /\
  1 < nth k (phi i) 0 + kt_line false dt dx c ss n phi g (fun _ => false) k i.
Proof. exact p_C75_range_refuted. Qed.
Print Assumptions C75_range_refuted.
