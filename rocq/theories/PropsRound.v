(** * Rounding: what the grid gets from the points when every operation is rounded.
    Statements only; the proofs are in ThmRound.v. *)
From Coq Require Import ZArith Reals List Bool Arith Lra Lia.
From RecordUpdate Require Import RecordUpdate.
From Flocq Require Import Core Relative.
From Verif Require Import State NumR NumRd Spec SpecRound LibList LibR ModelGrid ModelConstit ModelParticle ModelMPList ModelMain
  ProofsGrid ProofsMap ProofsP2G ProofsRound ProofsRound2 ProofsRound3 Concrete.
Import ListNotations.
From Verif Require Import ThmRound.
Local Open Scope R_scope.

(** What each node gets.  Every operation is rounded with relative error at most [u], whole numbers up to the number of
    nodes are not; the grid is resolved, and the points keep a rounding away from its right and upper ends.  Then the
    mass of a node is the exact sum of the masses of the points, weighted with the tent function of the node, up to a
    multiple of the mass of the points within two cells of it.  The factor, [blur], depends on how many points are that
    near, not on how many there are, and on how well the grid is resolved: a point that is put into the wrong cell, and
    nodes whose coordinates are rounded, do no further harm. *)
Theorem C114_node : forall rd u P B G L G' k c,
  rounding rd u -> counts rd (nodes (pG P)) -> proper (pG P) -> resolved u (pG P) -> @grid_init R (Num_rd rd) (pG P) B = Ok G ->
  all_live L (fun _ p => clear u (pG P) (px p)) -> gathered rd P G L G' -> (k < nodes (pG P))%nat -> (crowd (pG P) L k <= c)%nat ->
  Rabs (nth k (gm G') 0 - psum L (fun _ p => pm p * hat (pG P) (px p) k)) <= blur u (pG P) c 5 * near_sum (pG P) L k (fun _ p => Rabs (pm p)).
Proof. exact p_C114_node. Qed.
Print Assumptions C114_node.

(** The total: the masses of the nodes add up to those of the points, up to [drift] of them. *)
Theorem C114_mass : forall rd u P B G L G' c,
  rounding rd u -> counts rd (nodes (pG P)) -> proper (pG P) -> resolved u (pG P) -> @grid_init R (Num_rd rd) (pG P) B = Ok G ->
  all_live L (fun _ p => clear u (pG P) (px p)) -> gathered rd P G L G' -> (forall k, (k < nodes (pG P))%nat -> (crowd (pG P) L k <= c)%nat) ->
  Rabs (Rsum (gm G') - psum L (fun _ p => pm p)) <=
    drift u c 5 * ((1 + 4 * slip_x u (pG P)) * (1 + 4 * slip_y u (pG P))) * psum L (fun _ p => Rabs (pm p)).
Proof. exact p_C114_mass. Qed.
Print Assumptions C114_mass.

(** Masses that are not negative give nodes a mass that is negative by no more than the rounding. *)
Theorem C114_floor : forall rd u P B G L G' k c,
  rounding rd u -> counts rd (nodes (pG P)) -> proper (pG P) -> resolved u (pG P) -> @grid_init R (Num_rd rd) (pG P) B = Ok G ->
  all_live L (fun _ p => clear u (pG P) (px p) /\ 0 <= pm p) -> gathered rd P G L G' -> (k < nodes (pG P))%nat -> (crowd (pG P) L k <= c)%nat ->
  - (blur u (pG P) c 5 * near_sum (pG P) L k (fun _ p => pm p)) <= nth k (gm G') 0.
Proof. exact p_C114_floor. Qed.
Print Assumptions C114_floor.

(** The same for momentum: each component of the momentum of a node that is not at a wall. *)
Theorem C114_momentum : forall rd u P B G L G' k a c,
  rounding rd u -> counts rd (nodes (pG P)) -> proper (pG P) -> resolved u (pG P) -> @grid_init R (Num_rd rd) (pG P) B = Ok G ->
  all_live L (fun _ p => clear u (pG P) (px p)) -> gathered rd P G L G' -> (k < nodes (pG P))%nat -> (crowd (pG P) L k <= c)%nat -> open_at P G k a ->
  Rabs (comp a (nth k (gq G') (mkV3 0 0 0)) - psum L (fun ph p => pm p * comp a (velocity ph p) * hat (pG P) (px p) k)) <=
    blur u (pG P) c 7 * near_sum (pG P) L k (fun ph p => Rabs (pm p * comp a (velocity ph p))).
Proof. exact p_C114_momentum. Qed.
Print Assumptions C114_momentum.

(** None of this fails: the points are located, weighted and summed. *)
Theorem C114_runs : forall rd u P B G L,
  rounding rd u -> counts rd (nodes (pG P)) -> proper (pG P) -> resolved u (pG P) -> @grid_init R (Num_rd rd) (pG P) B = Ok G ->
  all_live L (fun _ p => clear u (pG P) (px p)) -> enough L -> p_seg P = false -> exists G', gathered rd P G L G'.
Proof. exact p_C114_runs. Qed.
Print Assumptions C114_runs.

(** Two points on a grid of four by three nodes, in binary64. *)
Example C114_node_example : exists G G',
  rounding near64 u64 /\ counts near64 (nodes (pG round_params)) /\ proper (pG round_params) /\ resolved u64 (pG round_params) /\
  @grid_init R (Num_rd near64) (pG round_params) ex_bounds = Ok G /\ all_live round_L (fun _ p => clear u64 (pG round_params) (px p) /\ 0 < pm p) /\
  gathered near64 round_params G round_L G' /\ (forall k, (k < nodes (pG round_params))%nat -> (crowd (pG round_params) round_L k <= 2)%nat) /\
  open_at round_params G 5 AX.
Proof. exact x_C114_node. Qed.
