(** * The data files of concrete runs: C116.
    Statements only; the proofs are in ThmSaveQ.v. *)
From Coq Require Import List Bool Arith ZArith QArith Lia.
From RecordUpdate Require Import RecordUpdate.
From Verif Require Import State NumQ NumX ModelGrid ModelParticle ModelMPList ModelMain ModelSave Concrete.
Import ListNotations.
From Verif Require Import ThmSaveQ.
Local Open Scope Q_scope.

(** The first and the last column of nodes of a cylinder are the same line.  The file of [save_density] shows the same
    density on both; the file of [save_s_bar] does not show the same size. *)
Theorem C116_seam_refuted : exists (G : grid Q) s' D S,
  grid_init (T := Q) ex_gridp seam_ring = Ok G /\
  time_march (T := Q) (fun _ => ex_loads) (fun _ l => l) (mkState seam_params G seam_grains) = Ok s' /\
  save_density (sP s') (sG s') = Ok D /\ save_s_bar (sP s') (sG s') = Ok S /\
  (nth 0 (nth 0 D []) 0 == nth 3 (nth 0 D []) 0) /\ ~ (nth 0 (nth 0 S []) 0 == nth 3 (nth 0 S []) 0).
Proof. exact p_C116_seam_refuted. Qed.
Print Assumptions C116_seam_refuted.

(** At a node without mass the velocity file holds no number, while the step uses zero there. *)
Theorem C116_blank_refuted : exists (G : grid (X Q)) s' U V,
  grid_init (T := X Q) ex_gridp ex_bounds = Ok G /\
  time_march (T := X Q) (fun _ => ex_loads) (fun _ l => l) (mkState (ex_params ex_bounds) G lone) = Ok s' /\
  save_u (sP s') (sG s') = Ok (U, V) /\ nth 3 (gm (sG s')) NaN = Fin 0 /\ nth 3 (nth 0 U []) (Fin 0) = NaN /\
  nth 3 (nth 0 V []) (Fin 0) = NaN.
Proof. exact p_C116_blank_refuted. Qed.
Print Assumptions C116_blank_refuted.
