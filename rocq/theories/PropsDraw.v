(** * What the pictures show: C118, C119, C120.
    Statements only; the proofs are in ThmDraw.v. *)
From Coq Require Import ZArith Reals List Bool Arith Lra Lia.
From RecordUpdate Require Import RecordUpdate.
From Verif Require Import State NumR NumX Spec SpecLaws SpecStep LibList LibR ModelGrid ModelConstit ModelParticle ModelMPList
  ModelIntegr ModelMain ModelSave ModelDraw ProofsGrid ProofsMap Concrete ThmMapping ThmFrac ThmSave.
Import ListNotations.
Local Existing Instance Num_R.
From Verif Require Import ThmDraw.
Local Open Scope R_scope.

(** The cell of a picture in which the value of the node in column [i] and row [j] is drawn reaches half a spacing to every
    side of the node; so a value is drawn around its own node, and the cells cover the picture without a gap. *)
Theorem C118_cells : forall P B G, proper P -> grid_init P B = Ok G -> let X := x_plot P G in let Y := y_plot P G in
  length X = S (nx P) /\ length Y = S (ny P) /\
  forall i j, (i < nx P)%nat -> (j < ny P)%nat -> let x := node_x P (j * nx P + i) in let y := node_y P (j * nx P + i) in
    nth i X 0 = x - cell_w P / 2 /\ nth (S i) X 0 = x + cell_w P / 2 /\ nth j Y 0 = y - cell_h P / 2 /\ nth (S j) Y 0 = y + cell_h P / 2.
Proof. exact p_C118_cells. Qed.
Print Assumptions C118_cells.

Example C118_cells_example : proper ex_gridp /\ exists G, grid_init (T := R) ex_gridp ex_box = Ok G /\ nth 1 (x_plot ex_gridp G) 0 = 1 / 2.
Proof. exact x_C118_cells. Qed.

(** A mark for every node and kind: at the node when it is of that kind, at the point (0, 0) when it is not. *)
Theorem C118_overlay : forall P B G, proper P -> grid_init P B = Ok G -> forall kind, let D := marks_of kind (draw_grid G) in
  length D = nodes P /\ forall k, (k < nodes P)%nat -> nth k D (0, 0) = if is_kind G kind k then (node_x P k, node_y P k) else (0, 0).
Proof. exact p_C118_overlay. Qed.
Print Assumptions C118_overlay.

Example C118_overlay_example : exists G, grid_init (T := R) ex_gridp ex_box = Ok G /\ is_kind G Cross 1 = true /\ is_kind G Green 5 = true /\ is_kind G Plus 5 = false.
Proof. exact x_C118_overlay. Qed.

(** The marks of the nodes that are not of a kind are drawn all the same, at (0, 0): the picture of a grid without a wall
    has a red cross, and the picture of a box a green plus on its corner. *)
Theorem C118_overlay_refuted : ~ forall P B G, proper P -> grid_init P B = Ok G -> forall kind xy, In xy (marks_of kind (draw_grid G)) ->
  exists k, (k < nodes P)%nat /\ is_kind G kind k = true /\ xy = (node_x P k, node_y P k).
Proof. exact p_C118_overlay_refuted. Qed.
Print Assumptions C118_overlay_refuted.

(** The panels [u], [v] and [rho] of every figure show the velocity (the numbers that [save_u] writes) and the density (the
    numbers that [save_density] writes) at every node with mass. *)
Theorem C119_motion : forall P So G Ds, s_law So <> Rigid -> draw_continuum P So G = Ok Ds ->
  shows (pG P) (gm G) Ds TU (fun k => vx (nth k (gq G) v0) / nth k (gm G) 0) /\
  shows (pG P) (gm G) Ds TV (fun k => vy (nth k (gq G) v0) / nth k (gm G) 0) /\
  shows (pG P) (gm G) Ds TRho (fun k => nth k (gm G) 0 / nth k (gV G) 0).
Proof. exact p_C119_motion. Qed.
Print Assumptions C119_motion.

(** Instance: C119_motion_example in PropsDrawRun.v. *)

(** The panel [|gammadot|]: the viscous laws and the flow laws show the size of the shear rate of the grid; dp and dp_rate
    show it divided by the nodal mass, and the other laws show the shear rate with its sign, divided by the nodal mass. *)
Theorem C119_rate : forall P So G Ds, draw_continuum P So G = Ok Ds ->
  let rate k := nth k (f_gammadot G) 0 in let m k := nth k (gm G) 0 in
  (s_law So = Viscous \/ s_law So = Bingham \/ s_law So = Pouliquen \/ s_law So = LinearMu ->
     shows (pG P) (gm G) Ds TRate (fun k => Rabs (rate k))) /\
  (s_law So = Dp \/ s_law So = DpRate -> shows (pG P) (gm G) Ds TRate (fun k => Rabs (rate k) / m k)) /\
  (s_law So = Elastic \/ s_law So = ElasticTime \/ s_law So = VonMises \/ s_law So = KenKamrin \/ s_law So = KenSimple ->
     shows (pG P) (gm G) Ds TRate (fun k => rate k / m k)).
Proof. exact p_C119_rate. Qed.
Print Assumptions C119_rate.

(** Instance: C119_rate_example in PropsDrawRun.v. *)

(** The panels of the stress: the fields divided by the nodal mass.  The flow laws and the other laws draw the pressure with
    its sign changed, dp and dp_rate do not; the ratio of shear stress to pressure is drawn without its sign for the flow
    laws and with it for dp and dp_rate. *)
Theorem C119_stress : forall P So G Ds, draw_continuum P So G = Ok Ds -> let f := family_of (s_law So) in
  let m k := nth k (gm G) 0 in let p k := nth k (f_pressure G) 0 / m k in let q k := nth k (f_dev G) 0 / m k in
  (f = FamFlow \/ f = FamOther -> shows (pG P) (gm G) Ds TPress (fun k => - p k) /\ shows (pG P) (gm G) Ds TShear q) /\
  (f = FamDp -> shows (pG P) (gm G) Ds TPress p /\ shows (pG P) (gm G) Ds TShear q /\ shows (pG P) (gm G) Ds TRatio (fun k => q k / p k)) /\
  (f = FamFlow -> shows (pG P) (gm G) Ds TRatio (fun k => Rabs (q k / p k))).
Proof. exact p_C119_stress. Qed.
Print Assumptions C119_stress.

(** Instance: C119_stress_example in PropsDrawRun.v. *)

(** The panels of the gradient of the shear rate, drawn for the viscous law, show zero everywhere: nothing computes the
    gradient. *)
Theorem C119_gradient : forall P So G Ds, s_law So = Viscous -> draw_continuum P So G = Ok Ds ->
  shows (pG P) (gm G) Ds TGradX (fun _ => 0) /\ shows (pG P) (gm G) Ds TGradY (fun _ => 0).
Proof. exact p_C119_gradient. Qed.
Print Assumptions C119_gradient.

(** Instance: C119_gradient_example in PropsDrawRun.v. *)

(** A node without mass is not drawn, whatever the fields hold there: in the figures of the viscous laws, the flow laws and
    dp every panel leaves its cell blank.  This is with the infinities and NaN of floating point, over any numbers whose zero
    equals itself. *)
Theorem C119_blank : forall (T : Type) (N : Num T) (P : params (X T)) So (G : grid (X T)) Ds t D i j,
  neqb n0 n0 = true -> draw_continuum P So G = Ok Ds ->
  family_of (s_law So) <> FamOther -> In (t, D) Ds -> (i < nx (pG P))%nat -> (j < ny (pG P))%nat ->
  nth (j * nx (pG P) + i) (gm G) NaN = Fin n0 -> cell (Some NaN) D i j = None.
Proof. exact p_C119_blank. Qed.
Print Assumptions C119_blank.

(** Instance: C119_blank_example in PropsDrawQ.v. *)

Theorem C120_wedges : forall P (L : list (phase R)), length (gs P) = ns P -> all_live L (fun _ p => fractions (ns P) (pphi p)) ->
  Forall2 (fun ph pic => Forall2 (disc P) (live ph) pic) L (draw_gsd_mp P L).
Proof. exact p_C120_wedges. Qed.
Print Assumptions C120_wedges.

Example C120_wedges_example : length (gs (ex_gridp (T := R))) = ns (ex_gridp (T := R)) /\ all_live (ex_L Elastic) (fun _ p => fractions (ns (ex_gridp (T := R))) (pphi p)) /\
  exists ph p, In ph (ex_L (T := R) Elastic) /\ In p (live ph).
Proof. exact x_C120_wedges. Qed.
