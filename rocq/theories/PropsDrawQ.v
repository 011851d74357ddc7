(** * Pictures of concrete runs: C119, C122.
    Statements only; the proofs are in ThmDrawQ.v. *)
From Coq Require Import List Bool Arith ZArith QArith Lia.
From RecordUpdate Require Import RecordUpdate.
From Verif Require Import State NumQ NumX ModelGrid ModelConstit ModelParticle ModelMPList ModelMain ModelSave ModelDraw Concrete.
Import ListNotations.
From Verif Require Import ThmDrawQ.
Local Open Scope Q_scope.

(** A sheared elastic material: the panel labelled with the size of the shear rate shows half of it at a node of mass two. *)
Theorem C119_rate_refuted : exists (G : grid Q) s' Ds,
  grid_init (T := Q) ex_gridp ex_bounds = Ok G /\ shear_run Elastic G = Ok s' /\
  draw_continuum (sP s') (ex_solid Elastic) (sG s') = Ok Ds /\ fst (nth 6 Ds (TU, [])) = TRate /\
  nth 5 (gm (sG s')) 0 == 2 /\ nth 5 (f_gammadot (sG s')) 0 == 593#1200 /\ value Ds 6 1 1 == 593#2400.
Proof. exact p_C119_rate_refuted. Qed.
Print Assumptions C119_rate_refuted.

(** A sheared viscous material: the panels of the gradient of the shear rate are zero, while the gradient of the shear rate
    of the grid, as [calculate_grad_gammadot] would compute it, is not. *)
Theorem C119_gradient_refuted : exists (G : grid Q) s' Ds,
  grid_init (T := Q) ex_gridp ex_bounds = Ok G /\ shear_run Viscous G = Ok s' /\
  draw_continuum (sP s') (ex_solid Viscous) (sG s') = Ok Ds /\ map fst (firstn 2 (skipn 5 Ds)) = [TGradX; TGradY] /\
  value Ds 5 1 1 == 0 /\ value Ds 6 1 1 == 0 /\
  let g := nth 5 (calculate_grad_gammadot (fun _ z => z) (sP s') (sG s')) v0 in vx g == 679#3200 /\ vy g == 9#400.
Proof. exact p_C119_gradient_refuted. Qed.
Print Assumptions C119_gradient_refuted.

(** One point in the first cell: its figure is blank at the last node of the first row, which has no mass. *)
Example C119_blank_example : exists (G : grid (X Q)) s' Ds,
  grid_init (T := X Q) ex_gridp ex_bounds = Ok G /\
  time_march (T := X Q) (fun _ => ex_loads) (fun _ l => l)
    (mkState (ex_params ex_bounds) G [mkPhase (ex_solid Viscous) 1 v0 [ex_particle (Fin (1#2)) (Fin (1#2)) v0 m0]]) = Ok s' /\
  draw_continuum (sP s') (ex_solid Viscous) (sG s') = Ok Ds /\ (0 < length Ds)%nat /\ nth 3 (gm (sG s')) NaN = Fin 0 /\
  Forall (fun tD => nth 3 (nth 0 (snd tD) []) (Some NaN) = None) Ds.
Proof. exact x_C119_blank. Qed.

Theorem C122_shares_refuted : exists (G : grid (X Q)) s' D Ds,
  grid_init (T := X Q) ex_gridp seam_ring = Ok G /\
  time_march (T := X Q) (fun _ => ex_loads) (fun _ l => l)
    (mkState (ex_params seam_ring <| p_seg := true |> <| p_c := Some (Fin 1) |> <| p_l := Some (Fin 1) |>) G
       [mkPhase (ex_solid Elastic) 1 v0 [ex_particle (Fin (1#2)) (Fin (1#2)) v0 m0]]) = Ok s' /\
  draw_gsd_grid (sP s') (sG s') = Ok (D, Ds) /\
  (exists x, nth 3 (gm (sG s')) NaN = Fin x /\ 0 < x) /\
  nth 3 (nth 0 D []) None = Some (Fin 0) /\ map (fun D' => nth 3 (nth 0 D' []) None) Ds = [Some (Fin 0); Some (Fin 0)].
Proof. exact p_C122_shares_refuted. Qed.
Print Assumptions C122_shares_refuted.
