(** * Segregation and the two ends of the grid: C112. *)
From Coq Require Import ZArith QArith Qabs List Bool Arith Lia.
From RecordUpdate Require Import RecordUpdate.
From Verif Require Import State NumQ ModelGrid ModelMain Concrete ThmSieveQ.
Import ListNotations.
Local Open Scope Q_scope.

(** Six points in the middles of the six cells of a cylinder, moving up at speeds that change around it; [c] cells
    further around. *)
Definition seam_point (c : nat) (x : nat) (y v a : Q) : particle Q :=
  sieve_point (inject_Z (Z.of_nat ((x + c) mod 3)) + (1 # 2)) y v a.
Definition seam_state (seg : bool) (c : nat) (G : grid Q) : state Q :=
  mkState (ex_params (ex_bounds <| cyclic_lr := true |>) <| p_dt := 1 # 100 |> <| p_seg := seg |> <| p_c := Some 1 |> <| p_l := Some 0 |>) G
    [mkPhase (ex_solid Elastic) 6 v0
      [seam_point c 0 (1#2) 0 0; seam_point c 1 (1#2) 1 (1#2); seam_point c 2 (1#2) 4 (1#2);
       seam_point c 0 (3#2) 0 0; seam_point c 1 (3#2) 1 (1#2); seam_point c 2 (3#2) 4 (1#2)]].
Definition mixtures (s : state Q) : list (list Q) := flat_map (fun ph => map pphi (ph_pts ph)) (sL s).
Definition xs (s : state Q) : list Q := flat_map (fun ph => map (fun p => vx (px p)) (ph_pts ph)) (sL s).
Definition ys (s : state Q) : list Q := flat_map (fun ph => map (fun p => vy (px p)) (ph_pts ph)) (sL s).


Definition qred_all (l : list Q) : list Q := map Qred l.

(** The claim is that on a cylinder it does not matter where the ends are joined.  For the motion this is C93; here it
    holds for the motion too, yet the mixtures of the grains differ: the fractions at the two ends of a row, which are the
    same place, are kept apart. *)
Lemma p_C112_seam_refuted : exists (G : grid Q) s1 t1,
  grid_init (T := Q) ex_gridp (ex_bounds <| cyclic_lr := true |>) = Ok G /\
  time_march (fun _ => mkLoads 0 0 0 0) (fun _ l => l) (seam_state true 0 G) = Ok s1 /\
  time_march (fun _ => mkLoads 0 0 0 0) (fun _ l => l) (seam_state true 1 G) = Ok t1 /\
  mixtures (seam_state true 1 G) = mixtures (seam_state true 0 G) /\
  qred_all (ys t1) = qred_all (ys s1) /\
  qred_all (xs t1) = qred_all (map (fun x => if Qlt_le_dec (x + 1) 3 then x + 1 else x - 2) (xs s1)) /\
  map qred_all (mixtures t1) <> map qred_all (mixtures s1).
Proof.
  destruct (grid_init (T := Q) ex_gridp (ex_bounds <| cyclic_lr := true |>)) as [G|] eqn:EG; [|vm_compute in EG; discriminate].
  exists G. vm_compute in EG. injection EG as EG.
  destruct (time_march (T := Q) (fun _ => mkLoads 0 0 0 0) (fun _ l => l) (seam_state true 0 G)) as [s1|] eqn:E1;
    rewrite <- EG in E1; vm_compute in E1; [|discriminate]. injection E1 as E1.
  destruct (time_march (T := Q) (fun _ => mkLoads 0 0 0 0) (fun _ l => l) (seam_state true 1 G)) as [t1|] eqn:E2;
    rewrite <- EG in E2; vm_compute in E2; [|discriminate]. injection E2 as E2.
  exists s1, t1. split; [reflexivity|]. split; [reflexivity|]. split; [reflexivity|]. split; [reflexivity|].
  rewrite <- E1, <- E2. split; [vm_compute; reflexivity|]. split; [vm_compute; reflexivity|]. vm_compute. discriminate.
Qed.

(** Grains whose viscosity is at its limit of one, in the cell at the left end of a grid whose ends are not joined. *)
Definition end_solid : solid Q :=
  mkSolid 2 1 KenSimple [1] (Some 3) (Some 2) (Some 1) (Some 2) (Some 0) (Some (1#2)) (Some 1) (Some 1)
    (Some (Sc 1)) (Some (Sc (1#2))) (Some (Sc 1)) (Some 1) (Some 1) (Some 1) (Some 1) (Some 2) (Some 1) (Some 1) (Some 1)
    (Some 1) (Some 0) (Some 0) (Some 1) (Some 1) (Some 1) [1] (Some (1#2, 1#2)) false None.
Definition end_state (seg : bool) (G : grid Q) : state Q :=
  mkState (ex_params ex_bounds <| p_dt := 1 # 100 |> <| p_seg := seg |> <| p_c := Some 1 |> <| p_l := Some 0 |>) G
    [mkPhase end_solid 1 v0 [sieve_point (1#2) (1#2) 0 (1#2) <| ppressure := - (100) |> <| pgammadot := 1 |>]].

(** The claim is that the viscosity field is the one of the grains near a node, as it is without segregation.  With
    segregation it shows at the right end, three cells away from the only point, what belongs to the left end. *)
Lemma p_C112_ends_refuted : exists (G : grid Q) s1 t1,
  grid_init (T := Q) ex_gridp ex_bounds = Ok G /\ cyclic_lr (T := Q) ex_bounds = false /\
  time_march (fun _ => mkLoads 0 0 0 0) (fun _ l => l) (end_state true G) = Ok s1 /\
  time_march (fun _ => mkLoads 0 0 0 0) (fun _ l => l) (end_state false G) = Ok t1 /\
  (nth 3 (gX G) 0 == 3 /\ nth 3 (gY G) 0 == 0) /\
  nth 3 (gm (sG s1)) 0 == 0 /\
  nth 0 (f_eta (sG t1)) 0 == 1 # 2 /\ nth 3 (f_eta (sG t1)) 0 == 0 /\
  nth 0 (f_eta (sG s1)) 0 == 1 # 2 /\ nth 3 (f_eta (sG s1)) 0 == 1 # 2.
Proof.
  destruct (grid_init (T := Q) ex_gridp ex_bounds) as [G|] eqn:EG; [|vm_compute in EG; discriminate].
  exists G. vm_compute in EG. injection EG as EG.
  destruct (time_march (T := Q) (fun _ => mkLoads 0 0 0 0) (fun _ l => l) (end_state true G)) as [s1|] eqn:E1;
    rewrite <- EG in E1; vm_compute in E1; [|discriminate]. injection E1 as E1.
  destruct (time_march (T := Q) (fun _ => mkLoads 0 0 0 0) (fun _ l => l) (end_state false G)) as [t1|] eqn:E2;
    rewrite <- EG in E2; vm_compute in E2; [|discriminate]. injection E2 as E2.
  exists s1, t1. split; [reflexivity|]. split; [reflexivity|]. split; [reflexivity|]. split; [reflexivity|].
  rewrite <- E1, <- E2, <- EG. repeat split; vm_compute; reflexivity.
Qed.
