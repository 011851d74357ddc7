(** * Segregation: concrete runs *)
From Coq Require Import ZArith List Bool Arith Lia Reals Lra QArith.
From Verif Require Import State NumQ ModelGrid ModelIntegr Concrete.
Import ListNotations.
Local Open Scope R_scope.

(** A 4x3 grid with the given fractions of the first class, unit masses, shear
    rate, pressure, mean size and kinetic pressure gradient. *)
Definition seg_grid (G : grid Q) (f : list Q) : grid Q :=
  G <| gm := repeat n1 12 |> <| g_phi := map (fun a => [a; (1 - a)%Q]) f |> <| g_gradpk := repeat (mkV3 n1 n1 n0) 12 |>
    <| g_sbar := repeat n1 12 |> <| f_gammadot := repeat n1 12 |> <| f_pressure := repeat n1 12 |>.
Definition seg_params (B : bounds Q) : params Q :=
  ex_params B <| p_c := Some n1 |> <| p_l := Some n1 |> <| pG := ex_gridp <| pdx := Some n1 |> <| pdy := Some n1 |> |>.
Definition valid_row (r : list Q) : Prop := Forall (fun a => (0 <= a <= 1)%Q) r /\ (lsum r == 1)%Q.
Definition seg_f : list Q := [0; (1#2); 1; (1#4); 0; (1#2); 1; (1#4); 0; (1#2); 1; (1#4)]%Q.

(** Fractions that sum to one at every node get increments that do not sum to
    zero over the classes. *)
Lemma p_C39_sum_refuted : exists P G A, Forall valid_row (g_phi G) /\ length (g_phi G) = nodes (pG P) /\
  KT0 (T := Q) P G = Ok A /\ exists m, (m < nodes (pG P))%nat /\ ~ (lsum (nth m A []) == 0)%Q.
Proof.
  destruct (grid_init (T := Q) ex_gridp ex_bounds) as [G|] eqn:EG; [|vm_compute in EG; discriminate].
  vm_compute in EG. injection EG as EG.
  destruct (KT0 (T := Q) (seg_params ex_bounds) (seg_grid G seg_f)) as [A|] eqn:EA; rewrite <- EG in EA; vm_compute in EA; [|discriminate].
  injection EA as EA. exists (seg_params ex_bounds), (seg_grid G seg_f), A. split.
  { repeat (apply Forall_cons; [split; [repeat (apply Forall_cons; [split; vm_compute; discriminate|]); apply Forall_nil|vm_compute; reflexivity]|]). apply Forall_nil. }
  split; [reflexivity|]. split; [rewrite <- EG, <- EA; vm_compute; reflexivity|].
  exists 5%nat. split; [vm_compute; lia|]. rewrite <- EA. intros E. vm_compute in E. discriminate.
Qed.
(** The conservation of C38 is not that of a zero field. *)
Example x_C38_rows : exists P G A, KT0 (T := Q) P G = Ok A /\ ~ (nth 0 (nth 5 A []) 0 == 0)%Q /\ ~ (nth 0 (nth 6 A []) 0 == 0)%Q /\
  (nth 0 (nth 4 A []) 0 + nth 0 (nth 5 A []) 0 + nth 0 (nth 6 A []) 0 + nth 0 (nth 7 A []) 0 == 0)%Q.
Proof.
  destruct (grid_init (T := Q) ex_gridp ex_bounds) as [G|] eqn:EG; [|vm_compute in EG; discriminate].
  vm_compute in EG. injection EG as EG.
  destruct (KT0 (T := Q) (seg_params ex_bounds) (seg_grid G seg_f)) as [A|] eqn:EA; rewrite <- EG in EA; vm_compute in EA; [|discriminate].
  injection EA as EA. exists (seg_params ex_bounds), (seg_grid G seg_f), A. split; [rewrite <- EG, <- EA; vm_compute; reflexivity|].
  rewrite <- EA. split; [|split; [|vm_compute; reflexivity]]; intros E; vm_compute in E; discriminate.
Qed.
(** With walls on all four sides diffusion does not conserve a size class. *)
Lemma p_C40_conservation_refuted : exists P rho_s G A, Forall valid_row (g_phi G) /\ 
  (exists G0, grid_init ex_gridp ex_box = Ok G0 /\ btot G = btot G0) /\
  Diffusion (T := Q) P rho_s G = Ok A /\ ~ (lsum (map (fun r => nth 0 r 0) A) == 0)%Q.
Proof.
  destruct (grid_init (T := Q) ex_gridp ex_box) as [G|] eqn:EG; [|vm_compute in EG; discriminate].
  vm_compute in EG. injection EG as EG.
  destruct (Diffusion (T := Q) (seg_params ex_box) 1%Q (seg_grid G seg_f)) as [A|] eqn:EA; rewrite <- EG in EA; vm_compute in EA; [|discriminate].
  injection EA as EA. exists (seg_params ex_box), 1%Q, (seg_grid G seg_f), A. split.
  { repeat (apply Forall_cons; [split; [repeat (apply Forall_cons; [split; vm_compute; discriminate|]); apply Forall_nil|vm_compute; reflexivity]|]). apply Forall_nil. }
  split; [exists G; split; reflexivity|]. split; [rewrite <- EG, <- EA; vm_compute; reflexivity|].
  rewrite <- EA. intros E. vm_compute in E. discriminate.
Qed.
