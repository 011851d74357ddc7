(** * Gravity, outlets, inlets, cyclic wrapping, independent velocities: C29-C32, C35.
    Statements only; the proofs are in ThmInOut.v. *)
From Coq Require Import ZArith Reals List Bool Arith Lra Lia.
From Verif Require Import State NumR Spec LibList LibR ModelGrid ModelConstit ModelParticle ModelMPList
  ProofsGrid ProofsMap ProofsP2G ProofsInOut Concrete ThmMapping.
Import ListNotations.
From Verif Require Import ThmInOut.
Local Open Scope R_scope.

(** After [update_forces] every particle of the first phase feels the current
    gravity, turned by the current angle. *)
Theorem C29_first_phase : forall P L L' ph' p', update_forces P L = Ok L' ->
  nth_error L' 0 = Some ph' -> In p' (live ph') ->
  let g := ld_g (p_loads P) in let th := ld_theta (p_loads P) in
  pb p' = mkV3 (g * sin th) (g * cos th) 0 /\ sq3 (pb p') = g * g.
Proof. exact p_C29_first_phase. Qed.
Print Assumptions C29_first_phase.

(** Later phases keep the body force they had, whatever the current gravity. *)
Theorem C29_later_phases_refuted :
  (forall P L L' k ph ph', update_forces P L = Ok L' -> (1 <= k)%nat ->
     nth_error L k = Some ph -> nth_error L' k = Some ph' -> ph' = ph) /\
  exists (P : params R) L L' ph' p', update_forces P L = Ok L' /\ nth_error L' 1 = Some ph' /\
    In p' (live ph') /\ ld_g (p_loads P) = 1 /\ pb p' = v0.
Proof. exact p_C29_later_phases_refuted. Qed.
Print Assumptions C29_later_phases_refuted.

(** With loads that never change, a particle starts with the right body force. *)
Theorem C29_initial : forall P S0 S x y phi p, particle_init P S0 S x y phi = Ok p ->
  pb p = mkV3 (ld_g (p_loads P) * sin (ld_theta (p_loads P))) (ld_g (p_loads P) * cos (ld_theta (p_loads P))) 0.
Proof. exact p_C29_initial. Qed.
Print Assumptions C29_initial.

(** Instance: C29_initial_example in PropsCases.v. *)

Example C29_first_phase_example : exists P L' ph' p', update_forces P (ex_L (T := R) Elastic) = Ok L' /\
  nth_error L' 0 = Some ph' /\ In p' (live ph').
Proof. exact x_C29_first_phase. Qed.

(** Exactly the particles below the floor are removed; the others stay, unchanged
    and in order, and the counter follows. *)
Theorem C30_outlet_bottom : forall P (L : list (phase R)), counted L ->
  exists L', outlet_bottom_f P L = Ok L' /\
    Forall2 (fun ph ph' =>
      ph_pts ph' = filter (fun p => if Rlt_dec (vy (px p)) (y_m (pG P)) then false else true) (ph_pts ph) /\
      ph_n ph' = length (ph_pts ph') /\ ph_sol ph' = ph_sol ph /\ ph_sv ph' = ph_sv ph) L L'.
Proof. exact p_C30_outlet_bottom. Qed.
Print Assumptions C30_outlet_bottom.

(** The left outlet removes the particles left of [x_m + dx], one cell too many. *)
Theorem C30_outlet_left_partial : forall P (L : list (phase R)) dx, counted L -> pdx (pG P) = Some dx ->
  exists L', outlet_left_f P L = Ok L' /\
    Forall2 (fun ph ph' =>
      ph_pts ph' = filter (fun p => if Rlt_dec (vx (px p)) (x_m (pG P) + dx) then false else true) (ph_pts ph) /\
      ph_n ph' = length (ph_pts ph') /\ ph_sol ph' = ph_sol ph /\ ph_sv ph' = ph_sv ph) L L'.
Proof. exact p_C30_outlet_left_partial. Qed.
Print Assumptions C30_outlet_left_partial.

(** Instance: C30_outlet_left_partial_example in PropsInst.v. *)

(** So particles well inside the domain are deleted: any particle in the first
    column of cells is. *)
Theorem C30_outlet_left_refuted :
  (forall P dx (ph : phase R) p L', pdx (pG P) = Some dx -> ph_n ph = length (ph_pts ph) -> In p (ph_pts ph) ->
     x_m (pG P) <= vx (px p) < x_m (pG P) + dx -> outlet_left_f P [ph] = Ok L' ->
     exists ph', L' = [ph'] /\ ~ In p (ph_pts ph')) /\
  exists P dx (p : particle R), pdx (pG P) = Some dx /\ inside (pG P) (px p) /\
     x_m (pG P) <= vx (px p) < x_m (pG P) + dx /\
     outlet_left_f P [mkPhase (ex_solid Elastic) 1 v0 [p]] = Ok [mkPhase (ex_solid Elastic) 0 v0 []].
Proof. exact p_C30_outlet_left_refuted. Qed.
Print Assumptions C30_outlet_left_refuted.

Example C30_outlet_bottom_example : counted (ex_L (T := R) Elastic) /\
  exists p : particle R, In p (ph_pts (ex_phase Elastic)).
Proof. exact x_C30_outlet_bottom. Qed.

(** The right inlet, when due, appends one particle per row position at distance
    [gap] from the right wall. *)
Theorem C31_inlet_right : forall P L L', inlet_right_f P L = Ok L' ->
  Forall2 (fun ph ph' => exists due, inlet_due P (ph_sol ph) = Ok due /\
    if due then (s_yp (ph_sol ph) <> [] -> exists gap, s_gap (ph_sol ph) = Some gap /\
      appended (pG P) (map (fun y => (x_M (pG P) - fst gap, y)) (s_yp (ph_sol ph))) ph ph')
    else ph' = ph) L L'.
Proof. exact p_C31_inlet_right. Qed.
Print Assumptions C31_inlet_right.

(** When nothing is due or there are no rows, nothing changes. *)
Theorem C31_inlet_right_none : forall P L L', inlet_right_f P L = Ok L' ->
  Forall2 (fun ph ph' => s_yp (ph_sol ph) = [] \/ inlet_due P (ph_sol ph) = Ok false -> ph' = ph) L L'.
Proof. exact p_C31_inlet_right_none. Qed.
Print Assumptions C31_inlet_right_none.

Theorem C31_inlet_top : forall P L L', inlet_top_f P L = Ok L' ->
  Forall2 (fun ph ph' => exists due, inlet_due P (ph_sol ph) = Ok due /\
    if due then exists gap, s_gap (ph_sol ph) = Some gap /\
      appended (pG P) [((x_M (pG P) - x_m (pG P)) / 2, y_M (pG P) - snd gap)] ph ph'
    else ph' = ph) L L'.
Proof. exact p_C31_inlet_top. Qed.
Print Assumptions C31_inlet_top.

(** Instance: C31_inlet_top_example in PropsInst.v. *)

(** The point of the top inlet is the middle of the domain only if [x_m = 0];
    with [x_M < 3 x_m] it is not even in the domain. *)
Theorem C31_inlet_top_middle_refuted : forall P : gridp R, proper P ->
  ((x_M P - x_m P) / 2 = (x_m P + x_M P) / 2 <-> x_m P = 0) /\
  (x_M P < 3 * x_m P -> (x_M P - x_m P) / 2 < x_m P).
Proof. exact p_C31_inlet_top_middle_refuted. Qed.
Print Assumptions C31_inlet_top_middle_refuted.

(** In a run with constant [dt <= rate], starting at [t = 0]: nothing enters
    during the first interval, in particular not at [t=0], and in every later
    interval [[j rate, (j+1) rate)] exactly one step lets points in. *)
Theorem C31_schedule : forall (P : params R) S rate dt, s_inlet_rate S = Some rate -> 0 < dt <= rate ->
  let due k := inlet_due (P <| p_t := INR k * dt |> <| p_dt := dt |>) S in
  (forall k, INR k * dt < rate -> due k = Ok false) /\
  (forall j, (1 <= j)%nat -> exists! k, INR j * rate <= INR k * dt < (INR j + 1) * rate /\ due k = Ok true).
Proof. exact p_C31_schedule. Qed.
Print Assumptions C31_schedule.

(** Instance: C31_schedule_example in PropsInst.v. *)

Example C31_inlet_right_example : exists P L L' ph ph', inlet_right_f (T := R) P L = Ok L' /\ In ph L /\ In ph' L' /\
  inlet_due P (ph_sol ph) = Ok true /\ (length (ph_pts ph) < length (ph_pts ph'))%nat.
Proof. exact x_C31_inlet_right. Qed.

(** A particle at most one width away comes back: moved by [-1], [0] or [1] widths
    into [[x_m,x_M]], untouched if it was there, everything else unchanged;
    wrapping again does nothing. *)
Theorem C32_wrap : forall (P : gridp R) p, proper P ->
  let w := x_M P - x_m P in
  x_m P - w <= vx (px p) <= x_M P + w ->
  let p' := wrap P p in
  x_m P <= vx (px p') <= x_M P /\
  (exists k : Z, vx (px p') = vx (px p) + IZR k * w) /\
  (x_m P <= vx (px p) <= x_M P -> p' = p) /\
  p' = p <| px := mkV3 (vx (px p')) (vy (px p)) (vz (px p)) |> /\
  wrap P p' = p'.
Proof. exact p_C32_wrap. Qed.
Print Assumptions C32_wrap.

(** The loop applies this to every particle of every phase and changes nothing else. *)
Theorem C32_cyclic_lr : forall P L L', cyclic_lr_f P L = Ok L' -> Lrel (fun _ p p' => p' = wrap (pG P) p) L L'.
Proof. exact p_C32_cyclic_lr. Qed.
Print Assumptions C32_cyclic_lr.

(** Instance: C32_cyclic_lr_example in PropsCases.v. *)

Example C32_wrap_example : exists (P : gridp R) p, proper P /\
  x_m P - (x_M P - x_m P) <= vx (px p) <= x_M P + (x_M P - x_m P) /\ vx (px p) < x_m P.
Proof. exact x_C32_wrap. Qed.

(** In a phase without declared initial velocity every particle is moved as if it
    were alone. *)
Theorem C35_independent : forall P G (ph ph' : phase R), move_all P G [ph] = Ok [ph'] ->
  s_law (ph_sol ph) <> Rigid -> (forall p, In p (live ph) -> exists v, pv p = Own v) ->
  Forall2 (fun p p' => forall sv, move_material_point P G p sv = Ok (p', sv)) (live ph) (live ph') /\
  ph_sv ph' = ph_sv ph /\ (forall p', In p' (live ph') -> exists v, pv p' = Own v).
Proof. exact p_C35_independent. Qed.
Print Assumptions C35_independent.

(** In a phase with declared initial velocity all particles share one velocity
    array: each of them gets the velocity changes of all. *)
Theorem C35_shared_refuted : forall P G (ph ph' : phase R), move_all P G [ph] = Ok [ph'] ->
  s_law (ph_sol ph) <> Rigid -> (forall p, In p (live ph) -> pv p = Shared) ->
  exists ds, Forall2 (own_change P G) (live ph) ds /\
    forall p' a, In p' (live ph') ->
      comp a (velocity ph' p') = comp a (ph_sv ph) + Rsum (map (comp a) ds).
Proof. exact p_C35_shared_refuted. Qed.
Print Assumptions C35_shared_refuted.

Example C35_independent_example : exists P G (ph ph' : phase R), move_all P G [ph] = Ok [ph'] /\
  s_law (ph_sol ph) <> Rigid /\ length (live ph) = 2%nat /\ forall p, In p (live ph) -> exists v, pv p = Own v.
Proof. exact x_C35_independent. Qed.

Example C35_shared_refuted_example : exists P G (ph ph' : phase R), move_all P G [ph] = Ok [ph'] /\
  s_law (ph_sol ph) <> Rigid /\ length (live ph) = 2%nat /\ forall p, In p (live ph) -> pv p = Shared.
Proof. exact x_C35_shared_refuted. Qed.
