(** * The main loop, output schedule and time steps: C42-C45, C56.
    Statements only; the proofs are in ThmLoop.v. *)
From Coq Require Import ZArith Reals List Bool Arith Lra Lia.
From Verif Require Import State NumR Spec LibList LibR ModelGrid ModelConstit ModelParticle ModelMPList ModelIntegr
  ModelMain NumX NumF ProofsGrid ProofsMap ProofsP2G ProofsInOut Concrete ThmMapping ThmInOut.
Import ListNotations.
From Verif Require Import ThmLoop.
Local Open Scope R_scope.

(** The loop runs the steps in order at the times [t, t+dt, ...], as long as
    [t <= t_f], each followed by its hooks; the initial and final hooks are
    called once. *)
Theorem C42_main_loop : forall uf fill fuel s s' tr, main_loop uf fill fuel s = Some (Ok (s', tr)) ->
  p_dynamic (sP s) = false -> 0 < p_dt (sP s) ->
  let t := p_t (sP s) in let tf := p_tf (sP s) in let dt := p_dt (sP s) in
  exists (n : nat) (st : nat -> state R) (saved : nat -> bool),
    n = (if Rle_dec t tf then Datatypes.S (Z.to_nat (Rfloor ((tf - t) / dt))) else 0%nat) /\
    st 0%nat = s /\ s' = st n /\
    (forall k, (k < n)%nat -> t + INR k * dt <= tf) /\ tf < t + INR n * dt /\
    (forall k, (k < n)%nat -> exists s1, time_march uf fill (st k) = Ok s1 /\
       st (Datatypes.S k) = s1 <| sP := sP s1 <| p_t := p_t (sP (st k)) + dt |> <| p_tstep := (p_tstep (sP (st k)) + 1)%Z |> |>) /\
    (forall k, (k <= n)%nat -> p_t (sP (st k)) = t + INR k * dt /\ p_tstep (sP (st k)) = (p_tstep (sP s) + Z.of_nat k)%Z) /\
    (forall k, (k < n)%nat -> saved k = true <-> saves (t + INR k * dt) dt (p_savetime (sP s))) /\
    tr = EInitial :: flat_map (fun k => hooks (p_tstep (sP s) + Z.of_nat k) (t + INR k * dt) (saved k)) (seq 0 n) ++ [EFinal].
Proof. exact p_C42_main_loop. Qed.
Print Assumptions C42_main_loop.

(** Instance: C42_main_loop_example in PropsRun.v. *)

(** It ends: given that many passes, the loop is not still running. *)
Theorem C42_terminates : forall uf fill fuel s, p_dynamic (sP s) = false -> 0 < p_dt (sP s) ->
  p_tf (sP s) < p_t (sP s) + INR fuel * p_dt (sP s) -> main_loop uf fill fuel s <> None.
Proof. exact p_C42_terminates. Qed.
Print Assumptions C42_terminates.

(** Instance: C42_terminates_example in PropsCasesStep.v. *)

(** In a run from [t=0] with [dt < savetime], after_every_nth_timestep is called
    exactly once in every save interval the run passes through: at its first
    step, at most [dt] after its start. *)
Theorem C43_once : forall uf fill fuel s s' tr j, main_loop uf fill fuel s = Some (Ok (s', tr)) ->
  p_dynamic (sP s) = false -> p_t (sP s) = 0 -> p_tstep (sP s) = 0%Z ->
  0 < p_dt (sP s) < p_savetime (sP s) ->
  let sv := p_savetime (sP s) in let dt := p_dt (sP s) in
  (INR j + 1) * sv <= p_tf (sP s) ->
  exists k : nat, filter (is_save (INR j * sv) ((INR j + 1) * sv)) tr = [ESave (Z.of_nat k) (INR k * dt)] /\
    INR j * sv <= INR k * dt < INR j * sv + dt.
Proof. exact p_C43_once. Qed.
Print Assumptions C43_once.

(** Instance: C43_once_example in PropsRun.v. *)

(** The condition fires on the very first step, whatever [dt] and [savetime]. *)
Theorem C43_first_step_refuted : forall (P : params R) dt sv, 0 < dt -> 0 < sv ->
  save_due (P <| p_t := 0 |> <| p_dt := dt |> <| p_savetime := sv |>) = Ok true.
Proof. exact p_C43_first_step_refuted. Qed.
Print Assumptions C43_first_step_refuted.

(** With [dt = savetime] the interval [[savetime, 2 savetime)] is never saved:
    its only step has [t = dt], which the condition excludes. *)
Theorem C43_equal_refuted : forall (P : params R) dt, 0 < dt -> forall k : nat,
  dt <= INR k * dt < 2 * dt ->
  save_due (P <| p_t := INR k * dt |> <| p_dt := dt |> <| p_savetime := dt |>) = Ok false.
Proof. exact p_C43_equal_refuted. Qed.
Print Assumptions C43_equal_refuted.

(** [dt = 0.1], [savetime = 0.5]: the steps 5 and 6, at [t = 0.5] and [t = 0.6],
    both lie in the save interval [[0.5, 1.0)] and both save. *)
Theorem C44_drift_refuted : exists dt sv : binary64, dt = lit 1 10 /\ sv = lit 1 2 /\
  (dt <? sv)%num = true /\
  exists i k : nat, i <> k /\
    forall P : params binary64, let due n := save_due (P <| p_t := ftime dt n |> <| p_dt := dt |> <| p_savetime := sv |>) in
    due i = Ok true /\ due k = Ok true /\
    (sv <=? ftime dt i)%num = true /\ (ftime dt i <? sv + sv)%num = true /\
    (sv <=? ftime dt k)%num = true /\ (ftime dt k <? sv + sv)%num = true.
Proof. exact p_C44_drift_refuted. Qed.
Print Assumptions C44_drift_refuted.

(** In exact arithmetic the same run saves once in that interval (see C43). *)
Example C44_exact_example : exists! k : nat, 1/2 <= INR k * (1/10) < 1 /\ saves (INR k * (1/10)) (1/10) (1/2).
Proof. exact x_C44_exact. Qed.

(** If some node moves, the step is positive, within the cell crossing
    condition at every node that carries mass, and within the critical time of
    every phase. *)
Theorem C45_dynamic : forall (P : params R) G L dx dy,
  pdx (pG P) = Some dx -> pdy (pG P) = Some dy -> 0 < dx -> 0 < dy -> 0 < p_CFL P ->
  length (gq G) = length (gm G) ->
  (forall ph c, In ph L -> s_crit (ph_sol ph) = Some c -> 0 < c) ->
  (exists i, (i < length (gm G))%nat /\ nth i (gm G) 0 <> 0 /\ (vx (nth i (gq G) v0) <> 0 \/ vy (nth i (gq G) v0) <> 0)) ->
  exists dt, dynamic_dt P G L = Ok dt /\ 0 < dt /\
    (forall i, (i < length (gm G))%nat -> let q := nth i (gq G) v0 in let m := nth i (gm G) 0 in
       dt * Rabs (vx q / m) <= p_CFL P * (1/10 * Rmin dx dy) /\ dt * Rabs (vy q / m) <= p_CFL P * (1/10 * Rmin dx dy)) /\
    (forall ph c, In ph L -> s_crit (ph_sol ph) = Some c -> dt <= p_CFL P * c).
Proof. exact p_C45_dynamic. Qed.
Print Assumptions C45_dynamic.

Example C45_dynamic_example : forall G : grid R,
  let G := G <| gm := [1; 0; 2; 1] |> <| gq := [v0; v0; mkV3 3 0 0; mkV3 1 (-1) 0] |> in
  exists dt, dynamic_dt (ex_params ex_bounds) G (ex_L Elastic) = Ok dt /\ 0 < dt /\ dt * (3 / 2) <= 1 / 10.
Proof. exact x_C45_dynamic. Qed.

(** [P.G.dx] is required although the grid computes it itself. *)
Theorem C45_needs_dx : forall (P : params R) G L, pdx (pG P) = None -> dynamic_dt P G L = Err AttributeError.
Proof. exact p_C45_needs_dx. Qed.
Print Assumptions C45_needs_dx.

(** Instance: C45_needs_dx_example in PropsCases.v. *)

(** When nothing moves and no phase has a critical time, the new step is
    infinite.  Numbers are the reals with infinities and NaN. *)
Theorem C45_at_rest_refuted : forall (P : params (X R)) G L dx dy c,
  pdx (pG P) = Some (Fin dx) -> pdy (pG P) = Some (Fin dy) -> 0 < dx -> 0 < dy -> p_CFL P = Fin c -> 0 < c ->
  length (gq G) = length (gm G) -> (0 < length (gm G))%nat ->
  Forall (fun m => exists r, m = Fin r) (gm G) ->
  Forall (fun q => vx q = Fin 0 /\ vy q = Fin 0) (gq G) ->
  Forall (fun ph => s_crit (ph_sol ph) = None) L ->
  dynamic_dt P G L = Ok PInf.
Proof. exact p_C45_at_rest_refuted. Qed.
Print Assumptions C45_at_rest_refuted.

Example C45_at_rest_refuted_example : forall G : grid (X R),
  dynamic_dt (ex_params ex_bounds) (G <| gm := [Fin 1; Fin 0] |> <| gq := [mkV3 (Fin 0) (Fin 0) (Fin 0); mkV3 (Fin 0) (Fin 0) (Fin 0)] |>)
    (ex_L Elastic) = Ok PInf.
Proof. exact x_C45_at_rest_refuted. Qed.

(** Once a point has yielded, every further call divides [dt] and [savetime] by
    20 again: after [k] calls by [20^k].  The claim is that this happens once. *)
Theorem C56_once_refuted : forall (k : nat) (yf : list R) s q, yt_q s = Some q ->
  yt_yielded s = true \/ (exists f, In f yf /\ 99 / 100 < f) ->
  exists s', iter_res k (yield_update yf) s = Ok s' /\
    yt_dt s' = yt_dt s / 20 ^ k /\ yt_save s' = yt_save s / 20 ^ k.
Proof. exact p_C56_once_refuted. Qed.
Print Assumptions C56_once_refuted.

(** Before any point has yielded nothing changes, and [dt], [savetime] are
    divided by 20 on the first call that finds a yielded point. *)
Theorem C56_first_yield : forall (yf : list R) s q, yt_q s = Some q -> yt_yielded s = false ->
  exists s', yield_update yf s = Ok s' /\
    ((forall f, In f yf -> f <= 99 / 100) -> s' = s) /\
    (forall f, In f yf -> 99 / 100 < f -> yt_yielded s' = true /\ yt_dt s' = yt_dt s / 20 /\ yt_save s' = yt_save s / 20).
Proof. exact p_C56_first_yield. Qed.
Print Assumptions C56_first_yield.

(** Instance: C56_first_yield_example in PropsCasesStep.v. *)

(** [P.q] is never defined by the code: the update then always fails once a
    point yields. *)
Theorem C56_needs_q : forall (yf : list R) s, yt_q s = None ->
  yt_yielded s = true \/ (exists f, In f yf /\ 99 / 100 < f) -> yield_update yf s = Err AttributeError.
Proof. exact p_C56_needs_q. Qed.
Print Assumptions C56_needs_q.

(** Instance: C56_needs_q_example in PropsInst.v. *)

Example C56_once_refuted_example : exists s', iter_res 2 (yield_update [1 : R]) (mkYtime false 100 7 (1/10) (1/2) (Some 3)) = Ok s' /\
  yt_dt s' = 1 / 10 / 20 ^ 2 /\ yt_save s' = 1 / 2 / 20 ^ 2.
Proof. exact x_C56_once_refuted. Qed.
