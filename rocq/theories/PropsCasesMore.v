(** * Cases that meet the hypotheses: moved runs, boxes, fills and flows
    Statements only; the proofs are in ThmCasesMore.v. *)
From Coq Require Import ZArith QArith Reals List Bool Arith Lra Lia.
From Verif Require Import State NumR NumQ Spec SpecLaws SpecStep SpecScheme SpecRing SpecFlow LibList LibR ModelGrid ModelInputs ModelConstit ModelParticle ModelMPList
  ModelIntegr ModelMain ProofsGrid ProofsMap ProofsP2G ProofsWalls ProofsShift Concrete ThmMapping ThmWalls ThmLaws ThmInOut ThmGeo ThmStep ThmShift ThmBox
  ProofsFill ThmFill ThmFlow.
Import ListNotations.
From Verif Require Import ThmCasesMore.
Local Open Scope R_scope.

(** The grid of the small box, moved by a thousand to the right and seven down. *)
Example C81_grid_example : exists G : grid R, grid_init ex_gridp ex_box = Ok G /\
  grid_init (shg 1000 (-7) ex_gridp) ex_box = Ok (shG 1000 (-7) G) /\ shG 1000 (-7) G <> G.
Proof. exact x_C81_grid. Qed.

(** Two points in a closed box, for as many passes as wanted. *)
Example C81_run_example : forall fuel, exists (s : state R), movable (-7) s /\
  main_loop (fun P => p_loads P) (fun _ l => l) fuel (shS 1000 (-7) s) =
    option_map (rmap (pr (shS 1000 (-7)) (fun tr => tr))) (main_loop (fun P => p_loads P) (fun _ l => l) fuel s) /\ sL s <> shL 1000 (-7) (sL s).
Proof. exact x_C81_run. Qed.

(** A box on a square grid of ten by ten nodes, which has its corner at column 4 of row 4, and on an oblong one. *)
Example C83_exact_example : exists (P P' : gridp Q) (B : bounds Q) G G0 G' G0', box B = true /\
  grid_init P B = Ok G /\ grid_init P (B <| box := false |>) = Ok G0 /\ nth 44 (bh G0) false = false /\ nth 44 (bh G) false = true /\
  grid_init P' B = Ok G' /\ grid_init P' (B <| box := false |>) = Ok G0' /\ nx P' <> ny P' /\ nth 44 (bh G0') false = false /\ nth 44 (bh G') false = true.
Proof. exact x_C83_exact. Qed.

(** A layer one cell deep in a domain of two cells height, three points a cell along each side. *)
Example C94_layer_example : exists uf fill (P : params R) (G : grid R) c rows So sv L (s' : state R),
  proper (pG P) /\ grid_init (pG P) (pB P) = Ok G /\ p_seg P = false /\ (1 <= c)%nat /\ (1 <= rows < ny (pG P) - 1)%nat /\
  s_A So = cell_share (pG P) c /\
  mplist_init P [(So, sv, places (layer (pG P) c rows (INR (ny (pG P) - 1 - rows) * cell_h (pG P))))] = Ok L /\ time_march uf fill (mkState P G L) = Ok s' /\ L <> [].
Proof. exact x_C94_layer. Qed.

(** A point in the middle of a steady granular flow on a slope of 45 degrees. *)
Example C89_forward_example : exists (P : params R) S p, p_flow P = FSteady /\ s_law S = Pouliquen /\ s_bar_0 (pG P) = Some 1 /\ s_I_0 S = Some (Sc 1) /\
  s_mu_0 S = Some (Sc (1/2)) /\ s_mu_1 S = Some 2 /\ s_packing S = Some 1 /\ p_l P = Some 1 /\
  1/2 < tan (Rabs (ld_theta (p_loads P))) < 2 /\ 0 < cos (Rabs (ld_theta (p_loads P))) /\ 0 < Rabs (p_max_g P) /\
  particle_init P S S 1 1 [] = Ok p /\ 0 < 1 < y_M (pG P).
Proof. exact x_C89_forward. Qed.
