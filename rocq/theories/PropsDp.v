(** * The Runge-Kutta integration of dp, and dp under isotropic stress: C124, C125.
    Statements only; the proofs are in ThmDp.v. *)
From Coq Require Import ZArith List Bool Arith Lia Reals Lra.
From Verif Require Import State NumR NumX LibR LibList Spec SpecLaws ModelGrid ModelConstit ModelParticle ModelMPList ModelMain ProofsGrid ProofsMap ProofsLaws ProofsHist ProofsX Concrete ThmLaws ThmLawsX ThmLawsD.
Import ListNotations.
Local Existing Instance Num_R.
From Verif Require Import ThmDp.
Local Open Scope R_scope.

(** For a law that is linear in the stress, RK4 follows the solution of
    ds/dt = func(dstrain, s) from the stress at hand over a unit of time up to
    a fifth derivative over 120: the scheme is of the fourth order. *)
Theorem C124_order : forall (A : M2 R -> M2 R) b f e s y, linear2 A -> (forall s', fst (f e s') = m2add (A s') b) ->
  y 0 = s -> solves (fun s' => fst (f e s')) y ->
  forall c, In c entries -> exists t, 0 < t < 1 /\
    c (y 1) - (c s + c (fst (RK4 f e s))) = c (A (A (A (A (fst (f e (y t))))))) / 120.
Proof. exact p_C124_order. Qed.
Print Assumptions C124_order.

(** A law that does not look at the stress is integrated without error. *)
Theorem C124_exact : forall f e s d, (forall s', fst (f e s') = d) -> fst (RK4 f e s) = d.
Proof. exact p_C124_exact. Qed.
Print Assumptions C124_exact.

(** What the law leaves alone, and what it changes at a fixed rate, RK4 leaves
    alone and changes at that rate: any linear combination of the entries. *)
Theorem C124_invariant : forall f e s (l : M2 R -> R) k,
  (forall a b, l (m2add a b) = l a + l b) -> (forall q a, l (m2scale q a) = q * l a) ->
  (forall s', l (fst (f e s')) = k) -> l (fst (RK4 f e s)) = k.
Proof. exact p_C124_invariant. Qed.
Print Assumptions C124_invariant.

(** The Drucker-Prager law does not depend on the speed: a strain k times as
    large changes the stress at k times the rate. *)
Theorem C124_speed : forall K g n mu beta e s k, 0 <= k ->
  fst (dp_guts K g n mu beta (m2scale k e) s) = m2scale k (fst (dp_guts K g n mu beta e s)).
Proof. exact p_C124_speed. Qed.
Print Assumptions C124_speed.

(** The law s' = s: the solution is the exponential, RK4 gives 41/24 for e - 1. *)
Example C124_order_example : exists A b f e s y, linear2 A /\ (forall s', fst (f e s') = m2add (A s') b) /\ y 0 = s /\ solves (fun s' => fst (f e s')) y /\
  aa (y 1) = exp 1 /\ aa s = 1 /\ aa (fst (RK4 f e s)) = 41 / 24.
Proof. exact x_C124_order. Qed.

Example C124_exact_example : exists f e s d, (forall s', fst (f e s') = d) /\ fst (RK4 f e s) = d /\ aa d = 3.
Proof. exact x_C124_exact. Qed.

(** A law that only shears keeps the pressure. *)
Example C124_invariant_example : exists f e s, (forall s', trace2 (fst (f e s')) = 0) /\ trace2 (fst (RK4 f e s)) = 0 /\ ab s = 1 /\ fst (f e s) = u2.
Proof. exact x_C124_invariant. Qed.

(** Whatever the strain: where the stress in the plane is isotropic, the
    increment of the stress in the plane is zero, since the direction of the
    shear stress is 0/0 and nan_to_num turns the whole increment into zero. *)
Theorem C125_responds_refuted : forall P So MP G MP' G' (s : M3 R), pstress MP = F3 s -> xx s = yy s -> xy s = 0 -> yx s = 0 ->
  dp P So MP G = Ok (MP', G') -> block2 (pdstress MP') = F2 (mkM2 0 0 0 0).
Proof. exact p_C125_responds_refuted. Qed.
Print Assumptions C125_responds_refuted.

(** So a point without stress -- as every script that does not start from its
    own weight makes them -- carries none for ever, however it is deformed: a
    heap of it offers no resistance. *)
Theorem C125_stress_free_refuted : forall P S0 So ip MP G MP' G' l dt, s_law So = Dp -> p_dt P = Fin dt -> pL MP = F3 l ->
  pstress MP = F3 zero3 -> pdstress MP = F3 zero3 -> update_stress P S0 So ip MP G = Ok (MP', G') ->
  pstress MP' = F3 zero3 /\ pdstress MP' = F3 zero3.
Proof. exact p_C125_stress_free_refuted. Qed.
Print Assumptions C125_stress_free_refuted.

(** A point whose friction was set by hand, strained at will, takes no stress. *)
Example C125_stress_free_refuted_example : forall e l, let MP := xp 0 e zero3 <| pmu := Some (Fin (1 / 2)) |> <| pL := F3 l |> in
  s_law (ex_solid (T := X R) Dp) = Dp /\ pL MP = F3 l /\ pstress MP = F3 zero3 /\ pdstress MP = F3 zero3 /\ pdstrain MP = F3 e /\
  exists MP' G', update_stress xP (ex_solid Dp) (ex_solid Dp) 0 MP xG = Ok (MP', G') /\ pstress MP' = F3 zero3.
Proof. exact x_C125_stress_free_refuted. Qed.
