(** * The box inside the domain: C83.
    Statements only; the proofs are in ThmBox.v. *)
From Coq Require Import ZArith QArith List Bool Arith Lia.
From Verif Require Import State NumQ PyBase LibList Spec ModelGrid ProofsGrid ProofsSlice Concrete ThmWalls.
Import ListNotations.
From Verif Require Import ThmBox.
Local Open Scope nat_scope.

(** On any grid the option [box] adds to the masks these runs of node numbers and nothing else, whatever the other walls:
    two runs of five nodes for the lower and upper side, two combs of step [nx] for the left and right side. *)
Theorem C83_exact : forall (T : Type) (N : Num T) (P : gridp T) (B : bounds T) (G G0 : grid T),
  grid_init P B = Ok G -> grid_init P (B <| box := false |>) = Ok G0 -> box B = true ->
  forall k, (k < nx P * ny P)%nat ->
  (nth k (bh G) false = true <-> nth k (bh G0) false = true \/ 4 * ny P + 4 <= k <= 4 * ny P + 8 \/ 8 * ny P + 4 <= k <= 8 * ny P + 8) /\
  (nth k (bv G) false = true <-> nth k (bv G0) false = true \/
    (4 * ny P + 4 <= k < 8 * ny P + 8 /\ exists i, k = 4 * ny P + 4 + i * nx P) \/
    (4 * ny P + 8 <= k < 8 * ny P + 16 /\ exists i, k = 4 * ny P + 8 + i * nx P)).
Proof. exact p_C83_exact. Qed.
Print Assumptions C83_exact.

(** Instance: C83_exact_example in PropsCasesMore.v. *)

(** On a grid with as many rows as columns, at least nine, the option [box] adds to the other walls exactly the four sides
    of the square of nodes from column 4 to column 8 and from row 4 to row 8: its left and right sides block horizontal
    motion, its lower and upper sides block vertical motion. *)
Theorem C83_square : forall (T : Type) (N : Num T) (P : gridp T) (B : bounds T) (G G0 : grid T),
  grid_init P B = Ok G -> grid_init P (B <| box := false |>) = Ok G0 -> box B = true -> nx P = ny P -> (9 <= nx P)%nat ->
  forall k, (k < nx P * ny P)%nat ->
  (nth k (bh G) false = true <-> nth k (bh G0) false = true \/ ((row P k = 4 \/ row P k = 8) /\ 4 <= col P k <= 8)) /\
  (nth k (bv G) false = true <-> nth k (bv G0) false = true \/ ((col P k = 4 \/ col P k = 8) /\ 4 <= row P k <= 8)).
Proof. exact p_C83_square. Qed.
Print Assumptions C83_square.

(** A square grid of ten by ten nodes with its outer walls. *)
Example C83_square_example : exists (P : gridp Q) (B : bounds Q) G G0, grid_init P B = Ok G /\ grid_init P (B <| box := false |>) = Ok G0 /\ box B = true /\
  nx P = ny P /\ (9 <= nx P)%nat /\ nth 44 (bv G) false = true /\ nth 44 (bh G) false = true /\ nth 0 (bh G0) false = true.
Proof. exact x_C83_square. Qed.

(** The offsets use the number of rows where the number of columns is meant.  On a grid of 15 columns and 10 rows the
    corner of the box (column 4, row 4) is free, while the last node of row 2 and the first node of row 3, on opposite
    sides of the domain, are blocked. *)
Theorem C83_oblong_refuted : exists (P : gridp Q) (B : bounds Q) G, grid_init P B = Ok G /\ box B = true /\ nx P = 15 /\ ny P = 10 /\
  nth (4 * 15 + 4) (bv G) false = false /\ nth (4 * 15 + 4) (bh G) false = false /\
  nth (2 * 15 + 14) (bh G) false = true /\ nth (3 * 15) (bh G) false = true /\ nth (2 * 15 + 14) (bv G) false = true.
Proof. exact p_C83_oblong_refuted. Qed.
Print Assumptions C83_oblong_refuted.
