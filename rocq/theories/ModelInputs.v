(** * Model of the input scripts, inputs/*.py: where they put the points, how
    much area they give to each, and the loads that their [update_forces] set.
    The scripts are user code that ships with the program.  Modelled are the
    definitions named below, for arbitrary domains, numbers of nodes and points
    per cell; numbers fixed in a script are arguments here. *)
From Coq Require Import ZArith Reals List Bool Arith.
From Verif Require Import State NumR ModelGrid.
Import ListNotations.

Section Fill.
  Context {T : Type} `{Num T}.
  Local Open Scope num_scope.

  (** inputs/seg_unit_test.py:40-43 and the same lines of the other scripts:
      [self.dx = self.x[1] - self.x[0]], [self.x = linspace(x_m,x_M,nx)]. *)
  Definition in_dx (P : gridp T) : T :=
    let xs := linspace (x_m P) (x_M P) (nx P) in nth 1 xs n0 - nth 0 xs n0.
  Definition in_dy (P : gridp T) : T :=
    let ys := linspace (y_m P) (y_M P) (ny P) in nth 1 ys n0 - nth 0 ys n0.

  (** The loop over [X = tile(xp,self.y)], [Y = repeat(yp,self.x)]:
      inputs/seg_unit_test.py:72-77. *)
  Definition spread (xp yp : list T) : list (T * T) :=
    combine (tile (length yp) xp) (repeat_each (length xp) yp).

  (** Points in a layer of [rows] rows of cells below the height [y_M - gap],
      [c] points per cell and direction: [gap] is zero in
      inputs/seg_unit_test.py:66-73 and the same lines of anisotropy,
      bi_double_insets, bi_seg_test, bi_vertical_chute, bingham_unit_test,
      chuteflow, dp_rate_unit_test, dp_unit_test, gsd, poly_seg_test,
      pouliquen_unit_test, silo, tri_seg_test, tunnel, viscous_unit_test
      (with [rows = ny-1]); [G.top_gap] in inputs/bi_conveyor.py:77-85
      ([rows = (ny-1)//2]) and francois.py:73-81 ([ny-2], before its points are
      split between two materials); [G.dy] in inputs/incline.py:81-88 ([ny-2]). *)
  Definition layer (P : gridp T) (c rows : nat) (gap : T) : list (T * T) :=
    let gx := in_dx P / nofZ (2 * Z.of_nat c) in
    let gy := in_dy P / nofZ (2 * Z.of_nat c) in
    spread (linspace (x_m P + gx) (x_M P - gx) ((nx P - 1) * c))
           (linspace (y_m P + gy) (y_M P - gy - gap) (rows * c)).

  (** The area per point.  inputs/seg_unit_test.py:78, [(G.x_M-G.x_m)*(G.y_M-G.y_m)/self.n];
      so in anisotropy, bi_double_insets, bingham_unit_test, dp_rate_unit_test,
      dp_unit_test, gsd, incline.py:93, poly_seg_test, pouliquen_unit_test,
      tri_seg_test, tunnel, viscous_unit_test. *)
  Definition share (P : gridp T) (n : nat) : T :=
    (x_M P - x_m P) * (y_M P - y_m P) / nofZ (Z.of_nat n).
  (** inputs/chuteflow.py:97, [(G.x_M-G.x_m)*(G.y_M-G.y_m)/2./self.n]. *)
  Definition half_share (P : gridp T) (n : nat) : T :=
    (x_M P - x_m P) * (y_M P - y_m P) / n2 / nofZ (Z.of_nat n).
  (** inputs/silo.py:92, bi_seg_test.py:106, bi_vertical_chute.py:111, bi_conveyor.py:90,
      francois.py:90: [G.dx*G.dy/self.pts_per_cell**2]. *)
  Definition cell_share (P : gridp T) (c : nat) : T :=
    in_dx P * in_dy P / nofZ (Z.of_nat c * Z.of_nat c).

  (** The points as mplist.py:15-26 reads them, of one size distribution. *)
  Definition places (l : list (T * T)) : list (T * T * option (list T)) := map (fun xy => (xy, None)) l.
End Fill.

(** ** Loads *)
Local Open Scope R_scope.

(** A script's [update_forces] sets [P.g] and, some of them, [P.q_v] and [P.q_h];
    the slope angle stays.  These are functions that [time_march] takes as its
    argument [uf].  Many scripts also set [P.q], which only mplist.py:281 prints:
    it is a separate definition here. *)

(** [M*(1.-exp(-3.*self.t**2/t_c**2))]. *)
Definition ramp (M t t_c : R) : R := M * (1 - exp (- 3 * (t * t) / (t_c * t_c))).
(** inputs/triaxial.py:21-24 and the same lines of brazillian, macro, pierre, vm_unit_test, slope_stab
    (lines 21-27) and others: gravity by the ramp; [q_v] and [q_h] are not touched. *)
Definition ramp_forces (t_c : R) (P : params R) : loads R :=
  mkLoads (ramp (p_max_g P) (p_t P) t_c) (ld_theta (p_loads P)) (ld_qv (p_loads P)) (ld_qh (p_loads P)).
(** inputs/triaxial.py:24, [P.q]; inputs/slope_stab.py:27 sets it to zero. *)
Definition ramp_q (max_q t_c : R) (P : params R) : R := ramp max_q (p_t P) t_c.
Definition slope_stab_q (P : params R) : R := 0.
(** inputs/bi_seg_test.py:33, [self.g = self.max_g]; so in PSM_slope_stab, ball, bi_dam_break,
    bi_double_insets, bi_vertical_chute, francois, poly_seg_test, seg_unit_test, tri_seg_test,
    tunnel, vicky, vicky_latest, viscous_unit_test (bi_drum and bi_square_drum also turn the
    slope angle, which is not modelled). *)
Definition constant_forces (P : params R) : loads R :=
  mkLoads (p_max_g P) (ld_theta (p_loads P)) (ld_qv (p_loads P)) (ld_qh (p_loads P)).
(** inputs/silo.py:27: [pass]. *)
Definition no_forces (P : params R) : loads R := p_loads P.
(** inputs/dp_unit_test.py:23-30 ([k] is 10), dp_rate_unit_test.py:23-30 (2). *)
Definition dp_forces (k max_q : R) (P : params R) : loads R :=
  let t_c := p_tf P / k in
  if Rlt_dec (p_t P) t_c
  then mkLoads 0 (ld_theta (p_loads P)) (max_q * p_t P / t_c) (max_q * p_t P / t_c)
  else mkLoads 0 (ld_theta (p_loads P)) (2 * max_q - p_t P / t_c * max_q) (p_t P * max_q / t_c).
(** inputs/pouliquen_unit_test.py:22-30. *)
Definition pouliquen_forces (max_q : R) (P : params R) : loads R :=
  let t_c := p_tf P / 2 in
  if Rlt_dec (p_t P) t_c
  then mkLoads 0 (ld_theta (p_loads P)) (p_t P * max_q / t_c) (p_t P * max_q / t_c)
  else mkLoads 0 (ld_theta (p_loads P)) (max_q - (p_t P - t_c) * max_q / t_c) (max_q + (p_t P - t_c) * max_q / t_c).
(** initialise.py:19-23 and 27: the loads at the start, where a script does not set them. *)
Definition first_loads (max_g max_q theta : R) : loads R := mkLoads max_g theta max_q max_q.
