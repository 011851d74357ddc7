(** * Other limiters and the range of the stand-alone solver: C73, C74.
    Statements only; the proofs are in ThmLimits.v. *)
From Coq Require Import ZArith List Bool Arith Lia Reals Lra.
From Verif Require Import State NumR LibR LibList Spec ModelGrid ModelIntegr ModelNewInt ThmSeg ThmGrad ThmNewInt.
Import ListNotations.
From Verif Require Import ThmLimits.
Local Open Scope R_scope.

(** vanLeer and vanAlbada1 return the limiter function of the ratio: a number
    that does not depend on the scale of the slopes. *)
Theorem C73_ratio : forall a b k : R, b <> 0 -> k <> 0 ->
  vanLeer (k * a) (k * b) = vanLeer a b /\ vanAlbada1 (k * a) (k * b) = vanAlbada1 a b.
Proof. exact p_C73_ratio. Qed.
Print Assumptions C73_ratio.

(** Instance: C73_ratio_example in PropsCases.v. *)

(** For slopes of one sign vanLeer is between 0 and 2, for opposite signs zero. *)
Theorem C73_vanLeer : forall a b : R, b <> 0 -> (0 < a * b -> 0 < vanLeer a b < 2) /\ (a * b <= 0 -> vanLeer a b = 0).
Proof. exact p_C73_vanLeer. Qed.
Print Assumptions C73_vanLeer.

(** Instance: C73_vanLeer_example in PropsCases.v. *)

(** Both weigh the two slopes evenly: multiplied by the second slope, either is
    the same whichever slope is taken first. *)
Theorem C73_even : forall a b : R, a <> 0 -> b <> 0 ->
  b * vanLeer a b = a * vanLeer b a /\ b * vanAlbada1 a b = a * vanAlbada1 b a.
Proof. exact p_C73_even. Qed.
Print Assumptions C73_even.

(** Instance: C73_even_example in PropsCases.v. *)

(** For slopes of one sign vanAlbada1 is positive and below 5/4; it is zero when
    the first slope is; and where the slopes have opposite signs it need not
    vanish: it is negative when the second is the steeper, positive when the first is. *)
Theorem C73_vanAlbada : forall a b : R, b <> 0 ->
  vanAlbada1 a b < 5 / 4 /\ (0 < a * b -> 0 < vanAlbada1 a b) /\ (a = 0 -> vanAlbada1 a b = 0) /\
  (a * b < 0 -> Rabs a < Rabs b -> -1 / 4 < vanAlbada1 a b < 0) /\ (a * b < 0 -> Rabs b < Rabs a -> 0 < vanAlbada1 a b).
Proof. exact p_C73_vanAlbada. Qed.
Print Assumptions C73_vanAlbada.

(** Instance: C73_vanAlbada_example in PropsCases.v. *)

(** So they are not slope limiters: no multiple of the slopes bounds them. *)
Theorem C73_slope_refuted : forall K : R, 0 < K ->
  (exists a b : R, 0 < a /\ 0 < b /\ K * Rmax a b < vanLeer a b) /\ (exists a b : R, 0 < a /\ 0 < b /\ K * Rmax a b < vanAlbada1 a b).
Proof. exact p_C73_slope_refuted. Qed.
Print Assumptions C73_slope_refuted.

(** minmod2: zero unless the three slopes have one sign, and then bounded by the
    second and theta times the first ... *)
Theorem C73_minmod2 : forall a b c theta : R, 0 <= theta ->
  (minmod2 a b c theta <> 0 -> (0 < a /\ 0 < b /\ 0 < c) \/ (a < 0 /\ b < 0 /\ c < 0)) /\
  Rabs (minmod2 a b c theta) <= theta * Rabs a /\ Rabs (minmod2 a b c theta) <= Rabs b /\ 0 <= minmod2 a b c theta * b.
Proof. exact p_C73_minmod2. Qed.
Print Assumptions C73_minmod2.

(** Instance: C73_minmod2_example in PropsCases.v. *)

(** ... but not by the third: np.minimum takes it as the place for the result. *)
Theorem C73_third_refuted : exists a b c theta : R, 1 <= theta <= 2 /\ theta * Rabs c < Rabs (minmod2 a b c theta).
Proof. exact p_C73_third_refuted. Qed.
Print Assumptions C73_third_refuted.

(** An explicit step from concentrations between 0 and 1 leaves none negative
    when 1.2 |v| dt <= dx; the main program uses |v| dt = 0.1 dx. *)
Theorem C74_nonneg : forall dx dt n (c v : nat -> R) m, 0 < dx -> 0 <= dt -> (forall i, (i < n)%nat -> 0 <= c i <= 1) ->
  (forall i, (i < n)%nat -> Rabs (v i) <= m) -> 0 <= m -> 6 / 5 * m * dt <= dx ->
  forall i, (i < n)%nat -> 0 <= c i + nEuler dx dt n c v i.
Proof. exact p_C74_nonneg. Qed.
Print Assumptions C74_nonneg.

(** Instance: C74_nonneg_example in PropsLimitsQ.v. *)

(** The program without diffusion conserves the total over any number of steps. *)
Theorem C57_main : forall dx dt n (w : R) steps (c : nat -> R), dx <> 0 -> (2 <= n)%nat ->
  fsum n (nrun dx dt 0 n (fun _ => w) steps c) = fsum n c.
Proof. exact p_C57_main. Qed.
Print Assumptions C57_main.

(** Instance: C57_main_example in PropsCasesQ.v. *)
