(** * The density near a free surface: C142
    Statements only; the proofs are in ThmSurface.v. *)
From Coq Require Import ZArith Reals List Bool Arith Lra Lia.
From Verif Require Import State NumR Spec SpecLaws SpecStep SpecScheme SpecRing LibList LibR ModelGrid ModelInputs ModelConstit ModelParticle ModelMPList
  ModelIntegr ModelMain ProofsGrid ProofsMap ProofsP2G ProofsWalls ProofsLaws ProofsInOut ProofsHist Concrete
  ThmMapping ThmWalls ThmLaws ThmInOut ThmHist ProofsStep ProofsPoints ThmStep ThmBalance ThmEnergy ThmFall ThmGeo ProofsScheme ThmScheme
  ThmDensity ProofsRing ThmRing ProofsFill ThmFill ThmFields ThmRheo ThmSift.
Import ListNotations.
From Verif Require Import ThmSurface.
Local Open Scope R_scope.

(** A layer that fills its cells evenly: after the first step its points have
    the density of the material only if they lie a cell or more below the surface;
    above, the density falls, in a straight line, to half of it. *)
Theorem C142_depth : forall uf fill (P : params R) (G : grid R) c rows So sv L (s' : state R),
  proper (pG P) -> grid_init (pG P) (pB P) = Ok G -> shut P -> (1 <= c)%nat -> (1 <= rows < ny (pG P) - 1)%nat -> 0 < thickness (pG P) -> s_law So <> Rigid ->
  0 <= p_Mtol P -> (forall k, (k < nodes (pG P))%nat -> p_Mtol P < s_rho So * nth k (gV G) 0 / 2) ->
  s_A So = cell_share (pG P) c ->
  mplist_init P [(So, sv, places (layer (pG P) c rows (INR (ny (pG P) - 1 - rows) * cell_h (pG P))))] = Ok L -> time_march uf fill (mkState P G L) = Ok s' ->
  Prel (fun _ p p' => 0 < depth (pG P) rows (px p) /\
    prho p' = if Rle_dec 1 (depth (pG P) rows (px p)) then s_rho So else s_rho So * ((1 + depth (pG P) rows (px p)) / 2)) L (sL s').
Proof. exact p_C142_depth. Qed.
Print Assumptions C142_depth.

(** Grains with the law pouliquen, evenly packed, that lie less than three fifths of a cell below the
    surface: their next pass through the law takes all of their pressure, whatever their stress and strain. *)
Theorem C142_surface_refuted : forall uf fill (P : params R) (G : grid R) c rows So sv L (s' : state R),
  proper (pG P) -> grid_init (pG P) (pB P) = Ok G -> shut P -> (1 <= c)%nat -> (1 <= rows < ny (pG P) - 1)%nat -> 0 < thickness (pG P) -> s_law So = Pouliquen -> 0 < s_rho So ->
  0 <= p_Mtol P -> (forall k, (k < nodes (pG P))%nat -> p_Mtol P < s_rho So * nth k (gV G) 0 / 2) ->
  s_A So = cell_share (pG P) c ->
  mplist_init P [(So, sv, places (layer (pG P) c rows (INR (ny (pG P) - 1 - rows) * cell_h (pG P))))] = Ok L -> time_march uf fill (mkState P G L) = Ok s' ->
  Prel (fun _ p p' => depth (pG P) rows (px p) < 3/5 -> forall P1 S0 ip p1 p2 G1 G2, prho p1 = prho p' -> apply_law P1 S0 So ip p1 G1 = Ok (p2, G2) -> ppressure p2 = 0) L (sL s').
Proof. exact p_C142_surface_refuted. Qed.
Print Assumptions C142_surface_refuted.

(** One row of three cells, of two, filled with grains, one point a cell, half a cell below the surface. *)
Example C142_surface_refuted_example : exists uf fill (P : params R) (G : grid R) c rows So sv L (s' : state R),
  proper (pG P) /\ grid_init (pG P) (pB P) = Ok G /\ shut P /\ (1 <= c)%nat /\ (1 <= rows < ny (pG P) - 1)%nat /\ 0 < thickness (pG P) /\ s_law So = Pouliquen /\ 0 < s_rho So /\
  0 <= p_Mtol P /\ (forall k, (k < nodes (pG P))%nat -> p_Mtol P < s_rho So * nth k (gV G) 0 / 2) /\ s_A So = cell_share (pG P) c /\
  mplist_init P [(So, sv, places (layer (pG P) c rows (INR (ny (pG P) - 1 - rows) * cell_h (pG P))))] = Ok L /\ time_march uf fill (mkState P G L) = Ok s' /\
  all_live L (fun _ p => depth (pG P) rows (px p) = 1/2) /\ length (flat_map live L) = 3%nat.
Proof. exact x_C142_surface_refuted. Qed.
