(** * Cases that meet the hypotheses: moved runs, boxes, fills and flows *)
From Coq Require Import ZArith QArith Reals List Bool Arith Lra Lia.
From Verif Require Import State NumR NumQ Spec SpecLaws SpecStep SpecScheme SpecRing SpecFlow LibList LibR ModelGrid ModelInputs ModelConstit ModelParticle ModelMPList
  ModelIntegr ModelMain ProofsGrid ProofsMap ProofsP2G ProofsWalls ProofsShift Concrete ThmMapping ThmWalls ThmLaws ThmInOut ThmGeo ThmStep ThmShift ThmBox
  ProofsFill ThmFill ThmFlow.
Import ListNotations.
Local Open Scope R_scope.

(** The grid of the small box, moved by a thousand to the right and seven down. *)
Example x_C81_grid : exists G : grid R, grid_init ex_gridp ex_box = Ok G /\
  grid_init (shg 1000 (-7) ex_gridp) ex_box = Ok (shG 1000 (-7) G) /\ shG 1000 (-7) G <> G.
Proof.
  destruct (grid_init_ok ex_gridp ex_box ex_proper) as (G & EG & OK). exists G. split; [exact EG|].
  split; [rewrite p_C81_grid, EG; reflexivity|]. intros E. apply (f_equal gX) in E.
  unfold grid_init in EG. revert E. inversion EG; subst G. cbn. unfold lit. cbn. unR. intros E.
  apply (f_equal (fun l => nth 0 l 0)) in E. cbn in E. lra.
Qed.

(** Two points in a closed box, for as many passes as wanted. *)
Example x_C81_run : forall fuel, exists (s : state R), movable (-7) s /\
  main_loop (fun P => p_loads P) (fun _ l => l) fuel (shS 1000 (-7) s) =
    option_map (rmap (pr (shS 1000 (-7)) (fun tr => tr))) (main_loop (fun P => p_loads P) (fun _ l => l) fuel s) /\ sL s <> shL 1000 (-7) (sL s).
Proof.
  intros fuel. destruct (grid_init_ok ex_gridp ex_box ex_proper) as (G & EG & OK).
  assert (M : movable (-7) (start (ex_params ex_box) G Elastic)).
  { split; [reflexivity|]. split; [left; reflexivity|left; reflexivity]. }
  exists (start (ex_params ex_box) G Elastic). split; [exact M|]. split; [apply p_C81_run; [reflexivity|exact M]|].
  intros EL. cbn [start sL ex_L shL map] in EL. apply (f_equal (fun l => match l with ph :: _ => match ph_pts ph with p :: _ => vx (px p) | [] => 0 end | [] => 0 end)) in EL.
  cbn in EL. unfold lit in EL. cbn in EL. lra.
Qed.

(** A box on a square grid of ten by ten nodes, which has its corner at column 4 of row 4, and on an oblong one. *)
Example x_C83_exact : exists (P P' : gridp Q) (B : bounds Q) G G0 G' G0', box B = true /\
  grid_init P B = Ok G /\ grid_init P (B <| box := false |>) = Ok G0 /\ nth 44 (bh G0) false = false /\ nth 44 (bh G) false = true /\
  grid_init P' B = Ok G' /\ grid_init P' (B <| box := false |>) = Ok G0' /\ nx P' <> ny P' /\ nth 44 (bh G0') false = false /\ nth 44 (bh G') false = true.
Proof.
  exists (ex_gridp <| nx := 10%nat |> <| ny := 10%nat |>), (ex_gridp <| nx := 15%nat |> <| ny := 10%nat |>), (ex_box <| box := true |>). do 4 eexists.
  split; [reflexivity|]. do 2 (split; [vm_compute; reflexivity|]). do 2 (split; [reflexivity|]). do 2 (split; [vm_compute; reflexivity|]).
  split; [discriminate|]. split; reflexivity.
Qed.

(** A layer one cell deep in a domain of two cells height, three points a cell along each side. *)
Example x_C94_layer : exists uf fill (P : params R) (G : grid R) c rows So sv L (s' : state R),
  proper (pG P) /\ grid_init (pG P) (pB P) = Ok G /\ p_seg P = false /\ (1 <= c)%nat /\ (1 <= rows < ny (pG P) - 1)%nat /\
  s_A So = cell_share (pG P) c /\
  mplist_init P [(So, sv, places (layer (pG P) c rows (INR (ny (pG P) - 1 - rows) * cell_h (pG P))))] = Ok L /\ time_march uf fill (mkState P G L) = Ok s' /\ L <> [].
Proof.
  set (l := layer (@ex_gridp R _) 3 1 (INR (ny (@ex_gridp R _) - 1 - 1) * cell_h ex_gridp)).
  destruct (fill_runs (cell_share ex_gridp 3) l) as (G & L & s' & EG & EL & E).
  { intros xy A. assert (HH : INR (ny (@ex_gridp R _) - 1 - 1) * cell_h ex_gridp = head ex_gridp 1) by reflexivity. unfold l in A. rewrite HH in A.
    destruct (layer_inside ex_gridp ex_proper 3 1 ltac:(lia) ltac:(cbn; lia) xy A) as [X Y]. unfold head, cell_h in Y. cbn in X, Y. revert X Y. unR. intros. lra. }
  exists (fun _ => mkLoads (-1) 0 0 0), (fun _ l => l), (ex_params ex_box), G, 3%nat, 1%nat, (fill_solid (cell_share ex_gridp 3)), v0, L, s'.
  split; [exact ex_proper|]. split; [exact EG|]. split; [reflexivity|]. split; [lia|]. split; [cbn; lia|]. split; [cbn [fill_solid s_A]; reflexivity|].
  split; [exact EL|]. split; [exact E|]. intros ->. unfold mplist_init in EL. cbn [mapM bind] in EL.
  match type of EL with context [bind (mapM ?f ?x) _] => destruct (mapM f x); discriminate end.
Qed.

(** A point in the middle of a steady granular flow on a slope of 45 degrees. *)
Example x_C89_forward : exists (P : params R) S p, p_flow P = FSteady /\ s_law S = Pouliquen /\ s_bar_0 (pG P) = Some 1 /\ s_I_0 S = Some (Sc 1) /\
  s_mu_0 S = Some (Sc (1/2)) /\ s_mu_1 S = Some 2 /\ s_packing S = Some 1 /\ p_l P = Some 1 /\
  1/2 < tan (Rabs (ld_theta (p_loads P))) < 2 /\ 0 < cos (Rabs (ld_theta (p_loads P))) /\ 0 < Rabs (p_max_g P) /\
  particle_init P S S 1 1 [] = Ok p /\ 0 < 1 < y_M (pG P).
Proof.
  set (P := fl_params FSteady 0 (PI / 4) 1). set (S := fl_solid Pouliquen (1/2) 2).
  destruct fl_slope as (H1 & H2 & H3). fold P in H1, H2, H3. cbv zeta in H1, H2, H3.
  destruct (particle_init P S S 1 1 []) as [p|] eqn:E; [|discriminate]. exists P, S, p. do 8 (split; [reflexivity|]). split; [lra|]. split; [exact H2|]. split; [exact H3|]. split; [exact E|].
  cbn. unR. lra.
Qed.
