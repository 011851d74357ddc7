(** * The data files of concrete runs: C116. *)
From Coq Require Import List Bool Arith ZArith QArith Lia.
From RecordUpdate Require Import RecordUpdate.
From Verif Require Import State NumQ NumX ModelGrid ModelParticle ModelMPList ModelMain ModelSave Concrete.
Import ListNotations.
Local Open Scope Q_scope.

(** A cylinder with coarse grains left of the seam and fine grains right of it. *)
Definition seam_ring {T} : bounds T :=
  mkBounds false false false None false true true true false false false
           false false false false false false false false false.
Definition seam_grains : list (phase Q) :=
  [mkPhase (ex_solid Elastic) 2 v0
     [ex_particle (1#2) (1#2) v0 m0 <| pphi := [1; 0] |>; ex_particle (5#2) (1#2) v0 m0 <| pphi := [0; 1] |>]].
Definition seam_params : params Q := ex_params seam_ring <| p_seg := true |> <| p_c := Some 1 |> <| p_l := Some 1 |>.

(** The first and the last column of nodes of a cylinder are the same line.  The file of [save_density] shows the same
    density on both; the file of [save_s_bar] does not show the same size. *)
Lemma p_C116_seam_refuted : exists (G : grid Q) s' D S,
  grid_init (T := Q) ex_gridp seam_ring = Ok G /\
  time_march (T := Q) (fun _ => ex_loads) (fun _ l => l) (mkState seam_params G seam_grains) = Ok s' /\
  save_density (sP s') (sG s') = Ok D /\ save_s_bar (sP s') (sG s') = Ok S /\
  (nth 0 (nth 0 D []) 0 == nth 3 (nth 0 D []) 0) /\ ~ (nth 0 (nth 0 S []) 0 == nth 3 (nth 0 S []) 0).
Proof.
  destruct (grid_init (T := Q) ex_gridp seam_ring) as [G|] eqn:EG; vm_compute in EG; [|discriminate].
  destruct (time_march (T := Q) (fun _ => ex_loads) (fun _ l => l) (mkState seam_params G seam_grains)) as [s'|] eqn:E;
    injection EG as <-; vm_compute in E; [|discriminate]. injection E as <-.
  do 4 eexists. split; [reflexivity|]. split; [vm_compute; reflexivity|]. split; [vm_compute; reflexivity|]. split; [vm_compute; reflexivity|].
  split; [vm_compute; reflexivity|]. vm_compute. discriminate.
Qed.

(** One point at rest in the first cell of a larger grid. *)
Definition lone : list (phase (X Q)) := [mkPhase (ex_solid Elastic) 1 v0 [ex_particle (Fin (1#2)) (Fin (1#2)) v0 m0]].
(** At a node without mass the velocity file holds no number, while the step uses zero there. *)
Lemma p_C116_blank_refuted : exists (G : grid (X Q)) s' U V,
  grid_init (T := X Q) ex_gridp ex_bounds = Ok G /\
  time_march (T := X Q) (fun _ => ex_loads) (fun _ l => l) (mkState (ex_params ex_bounds) G lone) = Ok s' /\
  save_u (sP s') (sG s') = Ok (U, V) /\ nth 3 (gm (sG s')) NaN = Fin 0 /\ nth 3 (nth 0 U []) (Fin 0) = NaN /\
  nth 3 (nth 0 V []) (Fin 0) = NaN.
Proof.
  destruct (grid_init (T := X Q) ex_gridp ex_bounds) as [G|] eqn:EG; vm_compute in EG; [|discriminate].
  destruct (time_march (T := X Q) (fun _ => ex_loads) (fun _ l => l) (mkState (ex_params ex_bounds) G lone)) as [s'|] eqn:E;
    injection EG as <-; vm_compute in E; [|discriminate]. injection E as <-.
  do 4 eexists. split; [reflexivity|]. split; [vm_compute; reflexivity|]. split; [vm_compute; reflexivity|]. repeat split.
Qed.
