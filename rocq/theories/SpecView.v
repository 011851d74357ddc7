(** * Specification of changes of units and of axes.

    A change of view: other units of length, mass and time, other directions and
    names of the axes, another origin; [y_node k] is the number that node [k] has
    in the new view. *)
From Coq Require Import ZArith Reals List Bool Arith.
From Verif Require Import State NumR Spec SpecScheme.
Import ListNotations.
Local Open Scope R_scope.

Record view := mkView {
  y_axis : axis -> axis;      (* new name of an axis; its own inverse *)
  y_sign : axis -> R;         (* -1 where the direction is reversed, else 1 *)
  y_len : R; y_mass : R; y_time : R;
  y_orig : V3 R;              (* the old origin in the new view *)
  y_node : nat -> nat
}.

Section View.
  Context (y : view).
  (** The value of a vector and of a matrix whose entries are multiplied by [u]. *)
  Definition see_vec (u : R) (w : V3 R) : V3 R := v3 (fun a => y_sign y (y_axis y a) * u * comp (y_axis y a) w).
  Definition see_mat (u : R) (m : M3 R) : M3 R :=
    m3 (fun a b => y_sign y (y_axis y a) * y_sign y (y_axis y b) * u * el (y_axis y a) (y_axis y b) m).
  Definition see_point (x : V3 R) : V3 R :=
    v3 (fun a => comp a (y_orig y) + y_sign y (y_axis y a) * y_len y * comp (y_axis y a) x).
  Definition u_vel : R := y_len y / y_time y.
  Definition u_acc : R := y_len y / (y_time y * y_time y).
  Definition u_stress : R := y_mass y / (y_len y * y_time y * y_time y).
  Definition see_matter (m : matter) : matter :=
    match m with
    | Solid K g => Solid (u_stress * K) (u_stress * g)
    | Fluid K eta zeta => Fluid (u_stress * K) (u_stress * y_time y * eta) (u_stress * y_time y * zeta)
    end.
  Definition see (q : mp) : mp :=
    mkMp (see_matter (q_mat q)) (y_mass y * q_m q) (y_len y * y_len y * y_len y * q_V q)
      (see_point (q_x q)) (see_vec u_vel (q_v q)) (see_mat u_stress (q_s q)) (u_stress * q_p q)
      (see_vec u_acc (q_b q)) (q_first q).
End View.

(** [y] is a sensible view. *)
Record fair (y : view) : Prop := {
  fr_inv : forall a, y_axis y (y_axis y a) = a;
  fr_sign : forall a, y_sign y a = 1 \/ y_sign y a = -1;
  fr_len : 0 < y_len y; fr_mass : 0 < y_mass y; fr_time : 0 < y_time y }.

(** Scheme [E'] is scheme [E] seen through [y]. *)
Record same_scheme (y : view) (E E' : scheme) : Prop := {
  ss_sum : forall f, fsum (e_nodes E') f = fsum (e_nodes E) (fun k => f (y_node y k));
  ss_dt : e_dt E' = y_time y * e_dt E;
  ss_tol : e_tol E' = y_mass y * e_tol E;
  ss_damp : e_damp E' = e_damp E;
  ss_open : forall a k, (k < e_nodes E)%nat -> e_open E' (y_axis y a) (y_node y k) = e_open E a k;
  ss_g : e_g E' = see_vec y (u_acc y) (e_g E);
  ss_hat : forall x k, (k < e_nodes E)%nat -> hat (e_P E') (see_point y x) (y_node y k) = hat (e_P E) x k }.
(** The gradients of the tent functions agree at [x]. *)
Definition same_slopes (y : view) (P P' : gridp R) (x : V3 R) : Prop :=
  forall a k, (k < nx P * ny P)%nat ->
  ghat P' (see_point y x) (y_axis y a) (y_node y k) = y_sign y a / y_len y * ghat P x a k.
