(** * Cases that meet the hypotheses: segregation on lines and grids
    Statements only; the proofs are in ThmCasesQ.v. *)
From Coq Require Import ZArith List Bool Arith Lia Reals Lra QArith.
From Verif Require Import State NumQ ModelGrid ModelConstit ModelParticle ModelMPList ModelIntegr ModelNewInt ModelNT Concrete ThmSegQ ThmNTQ ThmNewIntQ.
Import ListNotations.
From Verif Require Import ThmCasesQ.
Local Open Scope Q_scope.

(** A line of five nodes on which something moves and the sum is zero. *)
Example C38_line_example : let d := kt_line (T := Q) false (1#10) 1 1 [1; 2] 5 nt_phi (fun _ => 1) (fun _ => false) 0 in
  (1 <= 5)%nat /\ ~ d 2%nat == 0 /\ Qtot 5 d == 0.
Proof. exact x_C38_line. Qed.

Example C38_columns_example : exists P G A, KT1 (T := Q) P G = Ok A /\ ~ nth 0 (nth 5 A []) 0 == 0 /\
  nth 0 (nth 1 A []) 0 + nth 0 (nth 5 A []) 0 + nth 0 (nth 9 A []) 0 == 0.
Proof. exact x_C38_columns. Qed.

(** The stand-alone solver on lines of two to four nodes. *)
Example C57_main_example : let c := qline [1#2; 0] in let d := nrun (T := Q) 1 (1#4) 0 2 (fun _ => 1) 1 c in
  (2 <= 2)%nat /\ qsum 2 d == qsum 2 c /\ ~ d 1%nat == c 1%nat.
Proof. exact x_C57_main. Qed.

Example C57_rk4_example : (1 <= 4)%nat /\ ~ nEuler (T := Q) 1 (1#4) 4 (qline [1; 1#2; 1#3; 0]) (fun _ => 1) 1%nat == 0.
Proof. exact x_C57_rk4. Qed.

Example C57_divisors_example : let c := qline [1; 1#2; 1#3; 0] in (forall k, 0 <= c k <= 1) /\ 0 < 1 /\
  ~ nlimiter (T := Q) ((c 1%nat - rollp 4 c 1) / 1) ((rollm 4 c 1 - c 1%nat) / 1) == 0.
Proof. exact x_C57_divisors. Qed.

Example C57_pure_example : let v := qline [1; 2; 3; 4] in ~ v 1%nat == v 2%nat /\ (2 < 4)%nat /\ nEuler (T := Q) 1 (1#4) 4 (fun _ => 1) v 2 == 0.
Proof. exact x_C57_pure. Qed.

Example C57_defect_example : ~ qsum 3 (nEuler (T := Q) 1 (1#4) 3 (fun _ => 1#2) (qline [1; 2; 3])) == 0.
Proof. exact x_C57_defect. Qed.

Example C57_diffusion_example : let c := qline [1; 1#2; 1#3; 0] in (2 <= 4)%nat /\ ~ qsum 4 (ndiffusion (T := Q) 1 1 (1#4) 4 c) == qsum 4 c.
Proof. exact x_C57_diffusion. Qed.

(** The two-dimensional NT scheme in a box. *)
Example C65_rows_example : exists P G A, NT0 (T := Q) P G = Ok A /\ nth 4 (btot G) false = true /\ nth 7 (btot G) false = true /\ ~ nth 0 (nth 6 A []) 0 == 0 /\
  nth 0 (nth 4 A []) 0 + nth 0 (nth 5 A []) 0 + nth 0 (nth 6 A []) 0 + nth 0 (nth 7 A []) 0 == 0.
Proof. exact x_C65_rows. Qed.

Example C65_columns_example : exists P G A, NT1 (T := Q) P G = Ok A /\ nth 1 (btot G) false = true /\ nth 9 (btot G) false = true /\ ~ nth 0 (nth 5 A []) 0 == 0 /\
  nth 0 (nth 1 A []) 0 + nth 0 (nth 5 A []) 0 + nth 0 (nth 9 A []) 0 == 0.
Proof. exact x_C65_columns. Qed.

(** A line whose speeds are at most 1, with a step of a tenth of a cell. *)
Example C68_line_example : let d := kt_line (T := Q) false (1#10) 1 1 [1; 2] 5 nt_phi (fun _ => 1) (fun _ => false) 0 in
  (forall j, (j < 5)%nat -> length (nt_phi j) = 2%nat /\ 0 <= nth 0 (nt_phi j) 0 /\ nabs (1 / (nth 0 (nt_phi j) 0 / 1 + nth 1 (nt_phi j) 0 / 2) - 1) <= 1) /\
  (1#10) * 1 <= 1 / 2 /\ nth 0 (nt_phi 2) 0 + d 2%nat < nth 0 (nt_phi 2) 0 /\ forall i, (i < 5)%nat -> 0 <= nth 0 (nt_phi i) 0 + d i.
Proof. exact x_C68_line. Qed.

(** A uniform mixture under a shear rate that grows along the line. *)
Example C69_uniform_mixture_example : let g := fun j => inject_Z (Z.of_nat (j * j)) in
  ~ kt_line (T := Q) false (1#10) 1 1 [1; 2] 5 (fun _ => [1#2; 1#2]) g (fun _ => false) 0 2 == 0 /\ (1 <= 2)%nat /\ (2 + 1 < 5)%nat.
Proof. exact x_C69_uniform_mixture. Qed.

(** Sizes between 3/2 and 5/2 on the grid, then back at the points. *)
Example C70_between_example : exists (G0 G1 G2 : grid Q) L, (G <- grid_init ex_gridp ex_bounds ;; Ok (wipe (ex_params ex_bounds) G)) = Ok G0 /\
  (L <- ref_nodes (ex_params ex_bounds) G0 (ex_L Elastic) ;; basis_all G0 L) = Ok L /\
  p2g_all (ex_params ex_bounds) L G0 = Ok G1 /\
  get_nodal_gsd (ex_params ex_bounds) true (fun p => Some (1 + vx (px p))) L G1 = Ok G2 /\
  p_Mtol (ex_params (T := Q) ex_bounds) < nth 5 (gm G1) 0 /\ 3#2 < nth 5 (g_sbar G2) 0 < 5#2 /\
  exists s, map_gsd_to_mp (ex_params ex_bounds) G2 (nth 0 (concat (map ph_pts L)) ex_p1) = Ok s /\ 3#2 < s < 5#2.
Proof. exact x_C70_between. Qed.
