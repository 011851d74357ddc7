(** * The NT scheme: concrete runs
    Statements only; the proofs are in ThmNTQ.v. *)
From Coq Require Import ZArith List Bool Arith Lia Reals Lra QArith.
From Verif Require Import State NumQ ModelGrid ModelConstit ModelParticle ModelMPList ModelIntegr ModelNT Concrete ThmSegQ.
Import ListNotations.
From Verif Require Import ThmNTQ.
Local Open Scope Q_scope.

(** Between closed ends something moves, and the class is conserved. *)
Example C65_line_example : let d := nt_line (T := Q) (1#10) 1 1 [1; 2] 5 nt_phi (fun _ => 1) ends 0 in
  ~ d 0%nat == 0 /\ ~ d 2%nat == 0 /\ Qtot 5 d == 0.
Proof. exact x_C65_line. Qed.

(** Through open ends it is not. *)
Theorem C65_open_refuted : exists (dt dx c : Q) ss n phi g, 0 < dt /\ 0 < dx /\ Forall (fun s => 0 < s) ss /\
  (forall i, (i < n)%nat -> valid_row (phi i)) /\ ~ Qtot n (nt_line dt dx c ss n phi g (fun _ => false) 0) == 0.
Proof. exact p_C65_open_refuted. Qed.
Print Assumptions C65_open_refuted.

Example C66_two_sizes_example : let d := nt_line (T := Q) (1#10) 1 1 [1; 2] 5 nt_phi (fun _ => 1) ends in
  ~ d 0%nat 2%nat == 0 /\ forall i, (i < 5)%nat -> d 0%nat i + d 1%nat i == 0.
Proof. exact x_C66_two_sizes. Qed.

(** With three sizes the fractions stop summing to one. *)
Theorem C66_three_sizes_refuted : exists (dt dx c : Q) ss n phi g b, 0 < dt /\ 0 < dx /\ Forall (fun s => 0 < s) ss /\
  (forall i, (i < n)%nat -> valid_row (phi i)) /\ exists i, (i < n)%nat /\
  ~ lsum (map (fun k => nt_line dt dx c ss n phi g b k i) [0%nat; 1%nat; 2%nat]) == 0.
Proof. exact p_C66_three_sizes_refuted. Qed.
Print Assumptions C66_three_sizes_refuted.

(** Two points of different sizes: at the node they share the mean lies strictly
    between the sizes, at the others it is the size of the only point. *)
Example C70_mean_example : exists (G0 G1 G2 : grid Q) L, (G <- grid_init ex_gridp ex_bounds ;; Ok (wipe (ex_params ex_bounds) G)) = Ok G0 /\
  (L <- ref_nodes (ex_params ex_bounds) G0 (ex_L Elastic) ;; basis_all G0 L) = Ok L /\
  p2g_all (ex_params ex_bounds) L G0 = Ok G1 /\
  get_nodal_gsd (ex_params ex_bounds) true (fun p => Some (1 + vx (px p))) L G1 = Ok G2 /\
  nth 0 (g_sbar G2) 0 == 3#2 /\ nth 6 (g_sbar G2) 0 == 5#2 /\ 3#2 < nth 5 (g_sbar G2) 0 /\ nth 5 (g_sbar G2) 0 < 5#2.
Proof. exact x_C70_mean. Qed.

Example C72_total_example : let d := norm_inc (T := Q) [1#2; 1#2; 9#10] [3#4; -(3#4); 0] in
  lsum d == 0 /\ ~ nth 0 d 0 == 3#4.
Proof. exact x_C72_total. Qed.

(** What it returns need not keep the fractions at most one. *)
Theorem C72_range_refuted : exists f d : list Q, Forall (fun a => 0 <= a /\ a <= 1) f /\
  ~ Forall (fun a => a <= 1) (zipw Qplus f (norm_inc f d)).
Proof. exact p_C72_range_refuted. Qed.
Print Assumptions C72_range_refuted.
