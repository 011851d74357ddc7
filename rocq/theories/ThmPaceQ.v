(** * What self-chosen time steps do not guarantee: C109. *)
From Coq Require Import ZArith QArith Qabs List Bool Arith Lia.
From RecordUpdate Require Import RecordUpdate.
From Verif Require Import State NumQ ModelGrid ModelMain Concrete.
Import ListNotations.
Local Open Scope Q_scope.

Definition pace_params (dt : Q) : params Q := ex_params ex_bounds <| p_dt := dt |> <| p_dynamic := true |>.
Definition pace_state (dt : Q) (G : grid Q) (p : particle Q) : state Q :=
  mkState (pace_params dt) G [mkPhase (ex_solid Elastic) 1 v0 [p]].
Definition pace_fill (_ : list bool) (l : list Q) : list Q := l.
(** The claim is that no point moves further than a tenth of a cell in a pass once the code chooses the time step.  A
    point at rest starts to fall: the speed after the first pass is small, so the second pass takes long, and in that
    time gravity takes the point a hundred cells down and out of the domain.  Cells have sides 1. *)
Lemma p_C109_crossing_refuted : exists (G : grid Q) s1 s2 tr1 tr2,
  let s := pace_state (1 # 100) G (ex_particle (1 # 2) (1 # 2) v0 m0) in
  grid_init (T := Q) ex_gridp ex_bounds = Ok G /\ p_dynamic (sP s) = true /\ p_CFL (sP s) == 1 /\
  pass (fun _ => mkLoads (-(1)) 0 0 0) pace_fill s [] = Ok (s1, tr1) /\ pass (fun _ => mkLoads (-(1)) 0 0 0) pace_fill s1 tr1 = Ok (s2, tr2) /\
  exists p1 p2, map ph_pts (sL s1) = [[p1]] /\ map ph_pts (sL s2) = [[p2]] /\
    gdx G == 1 /\ gdy G == 1 /\ 0 < vy (px p1) /\ vy (px p1) < 1 /\ vy (px p2) + 100 < vy (px p1).
Proof.
  destruct (grid_init (T := Q) ex_gridp ex_bounds) as [G|] eqn:EG; [|vm_compute in EG; discriminate].
  exists G. vm_compute in EG. injection EG as EG.
  destruct (pass (T := Q) (fun _ => mkLoads (-(1)) 0 0 0) pace_fill (pace_state (1 # 100) G (ex_particle (1 # 2) (1 # 2) v0 m0)) []) as [[s1 tr1]|] eqn:E1;
    rewrite <- EG in E1; vm_compute in E1; [|discriminate]. injection E1 as E1 T1.
  destruct (pass (T := Q) (fun _ => mkLoads (-(1)) 0 0 0) pace_fill s1 tr1) as [[s2 tr2]|] eqn:E2;
    rewrite <- E1, <- T1 in E2; vm_compute in E2; [|discriminate]. injection E2 as E2 T2.
  exists s1, s2, tr1, tr2. cbv zeta. split; [reflexivity|]. split; [reflexivity|]. split; [reflexivity|].
  split; [rewrite <- EG, <- E1, <- T1; vm_compute; reflexivity|].
  split; [rewrite <- E1, <- T1, <- E2, <- T2; vm_compute; reflexivity|].
  rewrite <- E1, <- E2, <- EG. eexists. eexists. split; [reflexivity|]. split; [reflexivity|]. repeat split; vm_compute; reflexivity.
Qed.

(** The claim is that the time step follows the nodes that carry velocity, which are those heavier than the tolerance.
    A point just beside a column of nodes: the nodes of the next column weigh less than the tolerance, so that their
    velocity is used nowhere, but the stress of the point acts on them and their momentum over their mass cuts the time
    step, from the eleventh part that the other nodes would allow, to less than a thousandth part of the unit time. *)
Lemma p_C109_light_refuted : exists (G : grid Q) s1 tr1,
  let s := pace_state (1 # 10) G (ex_particle (1 # 10000) (1 # 2) (mkV3 1 0 0) (mkM3 1 0 0 0 0 0 0 0 0)) in
  grid_init (T := Q) ex_gridp ex_bounds = Ok G /\ p_dynamic (sP s) = true /\ p_CFL (sP s) == 1 /\
  pass (fun _ => mkLoads 0 0 0 0) pace_fill s [] = Ok (s1, tr1) /\
  (forall k, p_Mtol (sP s) < nth k (gm (sG s1)) 0 ->
     Qabs (vx (nth k (gq (sG s1)) v0)) <= (11 # 10) * nth k (gm (sG s1)) 0 /\ Qabs (vy (nth k (gq (sG s1)) v0)) <= (11 # 10) * nth k (gm (sG s1)) 0) /\
  (exists k, p_Mtol (sP s) < nth k (gm (sG s1)) 0) /\
  gdx G == 1 /\ gdy G == 1 /\ p_dt (sP s1) < 1 # 1000.
Proof.
  destruct (grid_init (T := Q) ex_gridp ex_bounds) as [G|] eqn:EG; [|vm_compute in EG; discriminate].
  exists G. vm_compute in EG. injection EG as EG.
  destruct (pass (T := Q) (fun _ => mkLoads 0 0 0 0) pace_fill (pace_state (1 # 10) G (ex_particle (1 # 10000) (1 # 2) (mkV3 1 0 0) (mkM3 1 0 0 0 0 0 0 0 0))) []) as [[s1 tr1]|] eqn:E1;
    rewrite <- EG in E1; vm_compute in E1; [|discriminate]. injection E1 as E1 T1.
  exists s1, tr1. cbv zeta. split; [reflexivity|]. split; [reflexivity|]. split; [reflexivity|].
  split; [rewrite <- EG, <- E1, <- T1; vm_compute; reflexivity|].
  rewrite <- E1, <- EG. split.
  - intros k Hk. do 12 (destruct k as [|k]; [first [split; vm_compute; discriminate|vm_compute in Hk; discriminate]|]).
    cbn in Hk. destruct k; vm_compute in Hk; discriminate.
  - split; [exists 0%nat; vm_compute; reflexivity|]. repeat split; vm_compute; reflexivity.
Qed.
