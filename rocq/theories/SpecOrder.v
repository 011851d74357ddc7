(** * Specification: states that differ in the order of the points. *)
From Coq Require Import List Arith Permutation.
From Verif Require Import State.
Import ListNotations.

(** Elements of a list that a partial function keeps. *)
Fixpoint omap {A B} (F : A -> option B) (l : list A) : list B :=
  match l with [] => [] | a :: l' => match F a with Some b => b :: omap F l' | None => omap F l' end end.

Section Order.
  Context {T : Type}.
  (** The same phase with its points in another order; the counter is right. *)
  Definition reordered (a b : phase T) : Prop :=
    ph_sol a = ph_sol b /\ ph_n a = ph_n b /\ ph_sv a = ph_sv b /\ Permutation (ph_pts a) (ph_pts b) /\ ph_n a = length (ph_pts a).
  Definition shuffled (s t : state T) : Prop := sP t = sP s /\ sG t = sG s /\ Forall2 reordered (sL s) (sL t).
  Definition points_of (L : list (phase T)) (k : nat) : list (particle T) :=
    match nth_error L k with Some ph => ph_pts ph | None => [] end.
  (** In phase [k] each point becomes [F k] of it (or is removed), then the
      points [new k] are added. *)
  Definition outcome (F : nat -> particle T -> option (particle T)) (new : nat -> list (particle T)) (L L' : list (phase T)) : Prop :=
    length L' = length L /\ forall k, points_of L' k = omap (F k) (points_of L k) ++ new k.
End Order.
