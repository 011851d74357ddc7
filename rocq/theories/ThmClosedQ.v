(** * Segregation at empty nodes: a concrete run *)
From Coq Require Import ZArith List Bool Arith Lia Reals Lra QArith.
From Verif Require Import State NumQ ModelGrid ModelIntegr Concrete ThmSegQ.
Import ListNotations.
Local Open Scope R_scope.

(** ** C80 *)
Definition gap_f : list (list Q) := (let r := [[1#2; 1#2]; [1#2; 1#2]; [0; 0]; [1#4; 3#4]] in r ++ r ++ r)%Q.
Definition gap_m : list Q := (let r := [1; 1; 0; 1] in r ++ r ++ r)%Q.
Definition gap_grid (G : grid Q) : grid Q := seg_grid G [] <| g_phi := gap_f |> <| gm := gap_m |>.
(** One empty column does not keep two bodies apart: the advection puts grains on the node without mass, beside a
    node that is not empty, where the mixture is uniform on either side. *)
Lemma p_C80_empty_refuted : exists P G A m k, KT0 (T := Q) P G = Ok A /\ (m < nodes (pG P))%nat /\
  (nth m (gm G) 0 == 0)%Q /\ (0 < p_Mtol P)%Q /\ nth m (btot G) true = false /\ (nth k (nth m (g_phi G) []) 1 == 0)%Q /\
  ~ (nth k (nth m A []) 0 == 0)%Q.
Proof.
  destruct (grid_init (T := Q) ex_gridp ex_bounds) as [G|] eqn:EG; [|vm_compute in EG; discriminate].
  vm_compute in EG. injection EG as EG.
  destruct (KT0 (T := Q) (seg_params ex_bounds) (gap_grid G)) as [A|] eqn:EA; rewrite <- EG in EA; vm_compute in EA; [|discriminate].
  injection EA as EA. exists (seg_params ex_bounds), (gap_grid G), A, 2%nat, 0%nat.
  split; [rewrite <- EG, <- EA; vm_compute; reflexivity|]. split; [vm_compute; lia|]. split; [reflexivity|]. split; [reflexivity|].
  split; [rewrite <- EG; reflexivity|]. split; [reflexivity|].
  rewrite <- EA. intros E. vm_compute in E. discriminate.
Qed.
