(** * The yield surface of von_mises: C132, C133.
    Statements only; the proofs are in ThmMises.v. *)
From Coq Require Import ZArith List Bool Arith Lia Reals Lra.
From RecordUpdate Require Import RecordUpdate.
From Verif Require Import State NumR LibR LibList Spec SpecLaws ModelGrid ModelConstit ModelParticle ModelMPList ModelMain ProofsGrid ProofsMap ProofsLaws ProofsHist Concrete ThmMapping ThmLaws.
Import ListNotations.
Local Existing Instance Num_R.
From Verif Require Import ThmMises.
Local Open Scope R_scope.

(** A step that loads a point on the yield surface is a step along the tangent:
    the square of the size of the deviator grows by the square of the step. *)
Theorem C132_tangent : forall P S0 So ip p G p' G' k, s_law So = VonMises -> apply_law P S0 So ip p G = Ok (p', G') -> s_k So = Some k -> 0 < k ->
  frob (pdev p) = sqrt 2 * k -> 0 <= inner (pdev p) (deviator (pdstrain p)) ->
  inner (pdev p') (pdev p') = 2 * (k * k) + inner (change p p') (change p p').
Proof. exact p_C132_tangent. Qed.
Print Assumptions C132_tangent.

(** So every loading that is not straight along the deviator takes the point
    beyond the surface. *)
Theorem C132_surface_refuted : forall P S0 So ip p G p' G' k g, s_law So = VonMises -> apply_law P S0 So ip p G = Ok (p', G') -> s_k So = Some k -> s_G So = Some g -> 0 < k -> g <> 0 ->
  frob (pdev p) = sqrt 2 * k -> 0 <= inner (pdev p) (deviator (pdstrain p)) -> (forall c, deviator (pdstrain p) <> times c (pdev p)) ->
  sqrt 2 * k < frob (pdev p').
Proof. exact p_C132_surface_refuted. Qed.
Print Assumptions C132_surface_refuted.

(** Straining across the deviator is not resisted at all, whatever the yield
    stress: the deviator grows by every such step. *)
Theorem C132_across : forall (Pn : nat -> params R) S0 So ip (p p' : nat -> particle R) (G G' : nat -> grid R) g s n,
  s_law So = VonMises -> s_G So = Some g -> s_s So = Some s -> 2 <= s -> (forall j, apply_law (Pn j) S0 So ip (p j) (G j) = Ok (p' j, G' j)) -> (forall j, pdev (p (j + 1)%nat) = pdev (p' j)) ->
  (forall j, inner (pdev (p j)) (deviator (pdstrain (p j))) = 0) ->
  inner (pdev (p n)) (pdev (p n)) = inner (pdev (p 0%nat)) (pdev (p 0%nat)) + 4 * (g * g) * fsum n (fun j => inner (deviator (pdstrain (p j))) (deviator (pdstrain (p j)))).
Proof. exact p_C132_across. Qed.
Print Assumptions C132_across.

(** Beyond any bound, in steps as small as one likes. *)
Theorem C132_unbounded_refuted : forall (Pn : nat -> params R) S0 So ip (p p' : nat -> particle R) (G G' : nat -> grid R) g s eps M,
  s_law So = VonMises -> s_G So = Some g -> s_s So = Some s -> 2 <= s -> (forall j, apply_law (Pn j) S0 So ip (p j) (G j) = Ok (p' j, G' j)) -> (forall j, pdev (p (j + 1)%nat) = pdev (p' j)) ->
  (forall j, inner (pdev (p j)) (deviator (pdstrain (p j))) = 0 /\ frob (deviator (pdstrain (p j))) = eps) -> 0 < eps -> g <> 0 ->
  exists n, M < frob (pdev (p n)).
Proof. exact p_C132_unbounded_refuted. Qed.
Print Assumptions C132_unbounded_refuted.

(** Straining in one direction in small enough steps never takes the stress
    beyond the surface, and never back. *)
Theorem C132_straight : forall (Pn : nat -> params R) S0 So ip (p p' : nat -> particle R) (G G' : nat -> grid R) k g s N x n,
  s_law So = VonMises -> s_k So = Some k -> s_G So = Some g -> s_s So = Some s -> 0 < k -> 0 <= g -> 2 <= s ->
  (forall j, apply_law (Pn j) S0 So ip (p j) (G j) = Ok (p' j, G' j)) -> (forall j, pdev (p (j + 1)%nat) = pdev (p' j)) ->
  frob N = sqrt 2 * k -> 0 <= x <= 1 -> pdev (p 0%nat) = times x N -> (forall j, exists c, 0 <= c /\ 2 * g * c * s <= 1 /\ deviator (pdstrain (p j)) = times c N) ->
  exists y, x <= y <= 1 /\ pdev (p n) = times y N.
Proof. exact p_C132_straight. Qed.
Print Assumptions C132_straight.

(** Straining back along the deviator: the plastic term has the sign of loading,
    and stiffens the point instead. *)
Theorem C133_back : forall P S0 So ip p G p' G' k g s N x c, s_law So = VonMises -> apply_law P S0 So ip p G = Ok (p', G') -> s_k So = Some k -> s_G So = Some g -> s_s So = Some s -> 0 < k -> 2 <= s ->
  frob N = sqrt 2 * k -> 0 < x -> pdev p = times x N -> c < 0 -> deviator (pdstrain p) = times c N ->
  pdev p' = times (x + 2 * (g * (1 + Rpower x s)) * c) N.
Proof. exact p_C133_back. Qed.
Print Assumptions C133_back.

(** So no unloading from a stressed state is elastic. *)
Theorem C133_elastic_refuted : forall P S0 So ip p G p' G' k g s N x c, s_law So = VonMises -> apply_law P S0 So ip p G = Ok (p', G') -> s_k So = Some k -> s_G So = Some g -> s_s So = Some s -> 0 < k -> g <> 0 -> 2 <= s ->
  frob N = sqrt 2 * k -> 0 < x -> pdev p = times x N -> c < 0 -> deviator (pdstrain p) = times c N ->
  change p p' <> times (2 * g) (deviator (pdstrain p)).
Proof. exact p_C133_elastic_refuted. Qed.
Print Assumptions C133_elastic_refuted.

(** Stretched to yield, then sheared. *)
Example C132_surface_refuted_example : exists P p G p' G', apply_law P ex_clay ex_clay 0 p G = Ok (p', G') /\ s_law ex_clay = VonMises /\ s_k ex_clay = Some 1 /\ s_G ex_clay = Some 2 /\ frob (pdev p) = sqrt 2 * 1 /\
  0 <= inner (pdev p) (deviator (pdstrain p)) /\ (forall c, deviator (pdstrain p) <> times c (pdev p)).
Proof. exact x_C132_surface_refuted. Qed.

(** From there on strained across the deviator for ever, by a hundredth in each step. *)
Example C132_unbounded_refuted_example : exists P So (p p' : nat -> particle R) (G G' : nat -> grid R),
  (forall j, apply_law P So So 0 (p j) (G j) = Ok (p' j, G' j)) /\ s_law So = VonMises /\ s_G So = Some 2 /\ s_s So = Some 2 /\
  (forall j, pdev (p (j + 1)%nat) = pdev (p' j)) /\ (forall j, inner (pdev (p j)) (deviator (pdstrain (p j))) = 0 /\ frob (deviator (pdstrain (p j))) = 1 / 100).
Proof. exact x_C132_unbounded_refuted. Qed.

(** Strained from rest along one direction: any number of steps of 1/8. *)
Example C132_straight_example : exists P So (p p' : nat -> particle R) (G G' : nat -> grid R) N,
  s_law So = VonMises /\ s_k So = Some 1 /\ s_G So = Some 2 /\ s_s So = Some 2 /\
  (forall j, apply_law P So So 0 (p j) (G j) = Ok (p' j, G' j)) /\ (forall j, pdev (p (j + 1)%nat) = pdev (p' j)) /\ frob N = sqrt 2 * 1 /\ pdev (p 0%nat) = times 0 N /\ 2 * 2 * (1 / 8) * 2 <= 1 /\ (forall j, deviator (pdstrain (p j)) = times (1 / 8) N).
Proof. exact x_C132_straight. Qed.

(** At half the yield stress, strained back. *)
Example C133_elastic_refuted_example : exists P p G p' G', apply_law P ex_clay ex_clay 0 p G = Ok (p', G') /\ s_law ex_clay = VonMises /\ s_k ex_clay = Some 1 /\ s_G ex_clay = Some 2 /\ s_s ex_clay = Some 2 /\ frob (plane 1 0) = sqrt 2 * 1 /\
  pdev p = times (1 / 2) (plane 1 0) /\ deviator (pdstrain p) = times (-1) (plane 1 0).
Proof. exact x_C133_elastic_refuted. Qed.
