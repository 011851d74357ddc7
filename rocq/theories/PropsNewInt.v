(** * The stand-alone segregation solver
    Statements only; the proofs are in ThmNewInt.v. *)
From Coq Require Import ZArith List Bool Arith Lia Reals Lra.
From Verif Require Import State NumR LibR LibList Spec ModelGrid ModelIntegr ModelNewInt ThmSeg ThmGrad.
Import ListNotations.
From Verif Require Import ThmNewInt.
Local Open Scope R_scope.

(** One explicit step, every concentration profile and length. *)
Theorem C57_euler : forall dx dt n (c : nat -> R) (w : R), dx <> 0 -> (1 <= n)%nat -> fsum n (nEuler dx dt n c (fun _ => w)) = 0.
Proof. exact p_C57_euler. Qed.
Print Assumptions C57_euler.

(** Instance: C57_euler_example in PropsNewIntQ.v. *)

Theorem C57_rk4 : forall dx dt n (c : nat -> R) (w : R), dx <> 0 -> (1 <= n)%nat -> fsum n (nRK4 dx dt n c (fun _ => w)) = 0.
Proof. exact p_C57_rk4. Qed.
Print Assumptions C57_rk4.

(** Instance: C57_rk4_example in PropsCasesQ.v. *)

(** The scheme that main uses: the total concentration stays the same. *)
Theorem C57_rk3 : forall dx dt n (c : nat -> R) (w : R), dx <> 0 -> (1 <= n)%nat -> fsum n (nRK3 dx dt n c (fun _ => w)) = fsum n c.
Proof. exact p_C57_rk3. Qed.
Print Assumptions C57_rk3.

(** Instance: C57_rk3_example in PropsNewIntQ.v. *)

(** Divisors that [velocity] meets when called by [KT]: with concentrations
    between 0 and 1 they are between 1 and 5/2, so nothing divides by zero. *)
Theorem C57_divisors : forall dx N (c : nat -> R) i, 0 < dx -> (forall k, 0 <= c k <= 1) ->
  forall s, s = 1 \/ s = -1 ->
  let r := c i + s * (dx / 2 * nlimiter ((c i - rollp N c i) / dx) ((rollm N c i - c i) / dx)) in
  0 <= r <= 1 /\ 1 <= r + (1 - r) * (5 / 2) <= 5 / 2.
Proof. exact p_C57_divisors. Qed.
Print Assumptions C57_divisors.

(** Instance: C57_divisors_example in PropsCasesQ.v. *)

(** A column of one kind of grain does not change, whatever the velocity. *)
Theorem C57_pure : forall dx dt n (v : nat -> R) (k : R) i, dx <> 0 -> (i < n)%nat -> k = 0 \/ k = 1 -> nEuler dx dt n (fun _ => k) v i = 0.
Proof. exact p_C57_pure. Qed.
Print Assumptions C57_pure.

(** Instance: C57_pure_example in PropsCasesQ.v. *)

(** Exact gain for a velocity that varies: one term for each face inside. *)
Theorem C57_defect : forall dx dt n (c v : nat -> R), dx <> 0 -> (1 <= n)%nat ->
  let C := pad_edge n c in
  fsum n (nEuler dx dt n c v) =
    dt / (2 * dx) * fsum (n - 1) (fun i =>
      let a := rec_r dx (n + 2) C (i + 1) in let b := rec_l dx (n + 2) C (i + 2) in face a b (v i) - face a b (v (i + 1)%nat)).
Proof. exact p_C57_defect. Qed.
Print Assumptions C57_defect.

(** Instance: C57_defect_example in PropsCasesQ.v. *)

(** Total of a profile after the diffusion step of new_integrator.py. *)
Theorem C57_diffusion : forall D dx dt n (c : nat -> R), (2 <= n)%nat -> dx <> 0 ->
  let g := grad1 (fun i => D * c i) dx n in
  fsum n (ndiffusion D dx dt n c) = fsum n c + dt / dx * (3 / 2 * (g (n - 1)%nat - g 0%nat) + (g 1%nat - g (n - 2)%nat) / 2).
Proof. exact p_C57_diffusion. Qed.
Print Assumptions C57_diffusion.

(** Instance: C57_diffusion_example in PropsCasesQ.v. *)
