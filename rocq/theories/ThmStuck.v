(** * Points at one place: C150. *)
From Coq Require Import ZArith Reals List Bool Arith Lra Lia.
From RecordUpdate Require Import RecordUpdate.
From Verif Require Import State NumR Spec SpecLaws SpecStep SpecScheme SpecView LibList LibR ModelGrid ModelConstit ModelParticle ModelMPList
  ModelIntegr ModelMain ProofsGrid ProofsMap ProofsP2G ProofsWalls ProofsLaws ProofsInOut ProofsHist Concrete
  ThmMapping ThmWalls ThmLaws ThmInOut ThmHist ProofsStep ProofsPoints ThmStep ThmBalance ThmEnergy ThmFall ThmGeo ProofsScheme ProofsView ThmScheme ThmView ThmSpin ThmAngular ThmBeat ThmObserver ThmSilent ThmCells ThmMerge.
Import ListNotations.
Local Open Scope R_scope.

(** Two points of a list of points are at one place. *)
Definition met (i j : nat) (B : list mp) : Prop := exists q r, nth_error B i = Some q /\ nth_error B j = Some r /\ q_x q = q_x r.
(** Two points of a list of points are in one state. *)
Definition twins (i j : nat) (B : list mp) : Prop := exists q, nth_error B i = Some q /\ nth_error B j = Some q.
Lemma met_step E B i j : met i j B -> met i j (t_step E B).
Proof.
  intros (q & r & Hq & Hr & X). unfold t_step. set (B1 := map (t_strained E B) B).
  exists (t_moved E B B1 (t_strained E B q)), (t_moved E B B1 (t_strained E B r)). unfold B1 at 2 4.
  split; [rewrite (map_nth_error _ i _ (map_nth_error (t_strained E B) i B Hq)); reflexivity|]. split; [rewrite (map_nth_error _ j _ (map_nth_error (t_strained E B) j B Hr)); reflexivity|].
  unfold t_moved. cbn [t_strained q_x]. rewrite X. reflexivity.
Qed.
Lemma twins_step E B i j : twins i j B -> twins i j (t_step E B).
Proof.
  intros (q & Hq & Hr). unfold t_step. set (B1 := map (t_strained E B) B). exists (t_moved E B B1 (t_strained E B q)). unfold B1 at 2 4.
  split; [rewrite (map_nth_error _ i _ (map_nth_error (t_strained E B) i B Hq)); reflexivity|rewrite (map_nth_error _ j _ (map_nth_error (t_strained E B) j B Hr)); reflexivity].
Qed.
(** ** C150 *)
(** Two points at one place stay at one place for ever, whatever their velocities, stresses
    and materials, and two points in one state stay in one state; for any walls, loads and
    numbers of steps. *)
Lemma p_C150_stuck : forall uf fill n (s : state R) tr, plain s -> (forall P, no_surface (sP s) (uf P)) ->
  (forall k, (k < n)%nat -> Forall (fun q => in_dom (pG (sP s)) (q_x q) /\ (p_check (sP s) = true -> vz (q_x q) = 0)) (t_run uf k (sP s) (sG s) (bodies (sL s)))) ->
  exists s' tr', after uf fill n s tr = Ok (s', tr') /\ forall i j,
  (met i j (bodies (sL s)) -> met i j (bodies (sL s'))) /\ (twins i j (bodies (sL s)) -> twins i j (bodies (sL s'))).
Proof.
  intros uf fill n s tr Hs HN HD. destruct (p_C84_run uf fill n s tr Hs HN HD) as (s' & sr & E1 & _ & B1).
  exists s', sr. split; [exact E1|]. rewrite B1. clear. intros i j.
  induction n as [|n [IH1 IH2]]; [split; intros H; exact H|]. rewrite t_run_S. split; intros H; [apply met_step, IH1, H|apply twins_step, IH2, H].
Qed.
(** Two elastic points at the middle of a cell, with velocities [v] and [w]. *)
Definition crossing (v w : V3 R) : list (phase R) := [mkPhase (stuff 3 2) 2 v0 [ex_particle (1/2) (1/2) v m0; ex_particle (1/2) (1/2) w m0]].
Lemma crossing_plain G v w : grid_ok ex_gridp G -> plain (pair_state G (crossing v w)).
Proof.
  intros OK. constructor; try assumption; try reflexivity; try (cbn; lra).
  - exact ex_proper.
  - intros ph [<-|[]]. reflexivity.
  - intros ph [<-|[]]. left. reflexivity.
  - eexists. split; [reflexivity|]. intros ph [<-|[]]. unfold equipped, has. cbn. split; discriminate.
  - intros ph p [<-|[]] [<-|[<-|[]]]; eexists; reflexivity.
  - repeat split; reflexivity.
  - left; reflexivity.
Qed.
Lemma crossing_inside v w : Forall (fun q => in_dom (ex_gridp (T := R)) (q_x q) /\ (p_check (ex_params (T := R) ex_bounds) = true -> vz (q_x q) = 0)) (bodies (crossing v w)).
Proof. repeat constructor; cbn; try (unR; lra); try reflexivity. Qed.
(** Two elastic points at one place with any two velocities are at one place after a step. *)
Lemma p_C150_part_refuted : forall uf fill v w, v <> w -> exists (s s' : state R) tr, plain s /\
  map q_v (bodies (sL s)) = [v; w] /\ met 0 1 (bodies (sL s)) /\ after uf fill 1 s [] = Ok (s', tr) /\ met 0 1 (bodies (sL s')).
Proof.
  intros uf fill v w _. destruct (grid_init_ok ex_gridp ex_bounds ex_proper) as (G & EG & OK).
  assert (M : met 0 1 (bodies (sL (pair_state G (crossing v w))))) by (eexists; eexists; split; [reflexivity|]; split; reflexivity).
  destruct (p_C150_stuck uf fill 1 (pair_state G (crossing v w)) [] (crossing_plain G v w OK)) as (s' & tr & E & A).
  - intros P. split; discriminate.
  - intros [|k] Hk; [exact (crossing_inside v w)|lia].
  - exists (pair_state G (crossing v w)), s', tr. split; [apply crossing_plain, OK|]. split; [reflexivity|]. split; [exact M|]. split; [exact E|exact (proj1 (A 0%nat 1%nat) M)].
Qed.
(** The premises hold for two points at one place that move in opposite directions. *)
Example x_C150_stuck : exists s : state R, plain s /\ (forall P, no_surface (sP s) (calm P)) /\
  (forall k, (k < 1)%nat -> Forall (fun q => in_dom (pG (sP s)) (q_x q) /\ (p_check (sP s) = true -> vz (q_x q) = 0)) (t_run calm k (sP s) (sG s) (bodies (sL s)))) /\
  met 0 1 (bodies (sL s)) /\ map q_v (bodies (sL s)) = [mkV3 3 0 0; mkV3 (-1) 0 0].
Proof.
  destruct (grid_init_ok ex_gridp ex_bounds ex_proper) as (G & EG & OK). exists (pair_state G (crossing (mkV3 3 0 0) (mkV3 (-1) 0 0))).
  split; [apply crossing_plain, OK|]. split; [intros P; split; discriminate|]. split; [intros [|k] Hk; [exact (crossing_inside _ _)|lia]|]. split; [|reflexivity]. eexists; eexists; split; [reflexivity|]; split; reflexivity.
Qed.
