(** * Runs do not depend on the units, and mirrored set-ups run mirrored: C86, C87, C88.
    Statements only; the proofs are in ThmView.v. *)
From Coq Require Import ZArith Reals List Bool Arith Lra Lia Permutation.
From Verif Require Import State NumR Spec SpecLaws SpecStep SpecScheme SpecView LibList LibR ModelGrid ModelConstit ModelParticle ModelMPList
  ModelIntegr ModelMain ProofsGrid ProofsMap ProofsP2G ProofsWalls ProofsLaws ProofsInOut ProofsHist Concrete
  ThmMapping ThmWalls ThmLaws ThmInOut ThmHist ProofsStep ProofsPoints ThmStep ThmBalance ThmEnergy ThmFall ThmGeo ProofsScheme ProofsView ThmScheme.
Import ListNotations.
From Verif Require Import ThmView.
Local Open Scope R_scope.

(** Two runs of which the second is the first seen through [y] stay so, as long as the points of the first run are in the domain
    in both views and the tent functions have the same gradients there. *)
Theorem C86_view : forall y uf uf' fill fill' n (s s' : state R) tr tr', fair y -> plain s -> plain s' ->
  (forall P, no_surface (sP s) (uf P)) -> (forall P, no_surface (sP s') (uf' P)) ->
  (forall j, (j < n)%nat -> same_scheme y (scheme_at uf j (sP s) (sG s)) (scheme_at uf' j (sP s') (sG s'))) ->
  bodies (sL s') = map (see y) (bodies (sL s)) ->
  during uf fill n s tr (fun x => placed (sP s) x /\ placed (sP s') (see_point y x) /\ same_slopes y (pG (sP s)) (pG (sP s')) x) ->
  exists z t z' t', after uf fill n s tr = Ok (z, t) /\ after uf' fill' n s' tr' = Ok (z', t') /\
  bodies (sL z') = map (see y) (bodies (sL z)).
Proof. exact p_C86_view. Qed.
Print Assumptions C86_view.

(** A run does not depend on the units of length, mass and time: in other units the points are the same, seen in those units. *)
Theorem C86_units : forall l m t uf uf' fill fill' n (s s' : state R) tr tr', 0 < l -> 0 < m -> 0 < t -> plain s -> plain s' ->
  rescaled l m t (sP s) (sP s') -> bv (sG s') = bv (sG s) -> bh (sG s') = bh (sG s) ->
  (forall P, no_surface (sP s) (uf P)) -> (forall P, no_surface (sP s') (uf' P)) ->
  (forall j, ld_g (uf' (clock uf' j (sP s'))) = l / (t * t) * ld_g (uf (clock uf j (sP s))) /\
             ld_theta (uf' (clock uf' j (sP s'))) = ld_theta (uf (clock uf j (sP s)))) ->
  bodies (sL s') = map (see (unit_view l m t)) (bodies (sL s)) ->
  during uf fill n s tr (placed (sP s)) ->
  exists z w z' w', after uf fill n s tr = Ok (z, w) /\ after uf' fill' n s' tr' = Ok (z', w') /\
  bodies (sL z') = map (see (unit_view l m t)) (bodies (sL z)).
Proof. exact p_C86_units. Qed.
Print Assumptions C86_units.

(** The mirror image of a set-up runs as the mirror image of its run: positions, velocities, stresses and forces are reflected in
    the vertical line through the middle of the domain, as long as no point lies exactly on a vertical line of nodes. *)
Theorem C87_mirror : forall uf uf' fill fill' n (s s' : state R) tr tr', plain s -> plain s' ->
  pG (sP s') = pG (sP s) -> p_dt (sP s') = p_dt (sP s) -> p_Mtol (sP s') = p_Mtol (sP s) -> p_damping (sP s') = p_damping (sP s) ->
  roughness (pB (sP s')) = roughness (pB (sP s)) -> p_check (sP s') = p_check (sP s) ->
  (forall k, (k < nodes (pG (sP s)))%nat -> nth (y_node (mirror (pG (sP s))) k) (bv (sG s')) false = nth k (bv (sG s)) false /\
                                           nth (y_node (mirror (pG (sP s))) k) (bh (sG s')) false = nth k (bh (sG s)) false) ->
  (forall P, no_surface (sP s) (uf P)) -> (forall P, no_surface (sP s') (uf' P)) ->
  (forall j, ld_g (uf' (clock uf' j (sP s'))) = ld_g (uf (clock uf j (sP s))) /\
             ld_theta (uf' (clock uf' j (sP s'))) = - ld_theta (uf (clock uf j (sP s)))) ->
  bodies (sL s') = map (see (mirror (pG (sP s)))) (bodies (sL s)) ->
  during uf fill n s tr (fun x => placed (sP s) x /\ off_lines (pG (sP s)) x) ->
  exists z w z' w', after uf fill n s tr = Ok (z, w) /\ after uf' fill' n s' tr' = Ok (z', w') /\
  bodies (sL z') = map (see (mirror (pG (sP s)))) (bodies (sL z)).
Proof. exact p_C87_mirror. Qed.
Print Assumptions C87_mirror.

(** Nothing in a run distinguishes x from y but the walls and gravity: with the domain, the walls, gravity and the points
    exchanged, the run is the exchanged run. *)
Theorem C88_flip : forall uf uf' fill fill' n (s s' : state R) tr tr', plain s -> plain s' ->
  flipped (pG (sP s)) (pG (sP s')) -> p_dt (sP s') = p_dt (sP s) -> p_Mtol (sP s') = p_Mtol (sP s) -> p_damping (sP s') = p_damping (sP s) ->
  roughness (pB (sP s')) = roughness (pB (sP s)) -> p_check (sP s') = p_check (sP s) ->
  (forall k, (k < nodes (pG (sP s)))%nat -> nth (y_node (flip (pG (sP s))) k) (bv (sG s')) false = nth k (bh (sG s)) false /\
                                           nth (y_node (flip (pG (sP s))) k) (bh (sG s')) false = nth k (bv (sG s)) false) ->
  (forall P, no_surface (sP s) (uf P)) -> (forall P, no_surface (sP s') (uf' P)) ->
  (forall j, ld_g (uf' (clock uf' j (sP s'))) = ld_g (uf (clock uf j (sP s))) /\
             ld_theta (uf' (clock uf' j (sP s'))) = PI / 2 - ld_theta (uf (clock uf j (sP s)))) ->
  bodies (sL s') = map (see (flip (pG (sP s)))) (bodies (sL s)) ->
  during uf fill n s tr (placed (sP s)) ->
  exists z w z' w', after uf fill n s tr = Ok (z, w) /\ after uf' fill' n s' tr' = Ok (z', w') /\
  bodies (sL z') = map (see (flip (pG (sP s)))) (bodies (sL z)).
Proof. exact p_C88_flip. Qed.
Print Assumptions C88_flip.

(** The pair in units in which lengths are 2, masses 5 and times 3 times as big. *)
Example C86_units_example : forall fill fill', exists s s' : state R, plain s /\ plain s' /\ rescaled 2 5 3 (sP s) (sP s') /\ bv (sG s') = bv (sG s) /\ bh (sG s') = bh (sG s) /\
  (exists k, nth k (bv (sG s)) false = true) /\
  bodies (sL s') = map (see (unit_view 2 5 3)) (bodies (sL s)) /\ (length (bodies (sL s)) = 2)%nat /\ during fall_loads fill 1 s [] (placed (sP s)) /\
  exists z w z' w', after fall_loads fill 1 s [] = Ok (z, w) /\ after (fun _ => mkLoads (2 / 9 * -10) (1/2) 0 0) fill' 1 s' [] = Ok (z', w') /\
  bodies (sL z') = map (see (unit_view 2 5 3)) (bodies (sL z)).
Proof. exact x_C86_units. Qed.

(** The pair of points and its mirror image. *)
Example C87_mirror_example : forall fill fill', exists s s' : state R, plain s /\ plain s' /\ pG (sP s') = pG (sP s) /\
  (exists k, nth k (bv (sG s)) false = true) /\
  (forall k, (k < nodes (pG (sP s)))%nat -> nth (y_node (mirror (pG (sP s))) k) (bv (sG s')) false = nth k (bv (sG s)) false /\
                                           nth (y_node (mirror (pG (sP s))) k) (bh (sG s')) false = nth k (bh (sG s)) false) /\
  bodies (sL s') = map (see (mirror (pG (sP s)))) (bodies (sL s)) /\ (length (bodies (sL s)) = 2)%nat /\
  during fall_loads fill 1 s [] (fun x => placed (sP s) x /\ off_lines (pG (sP s)) x) /\
  exists z w z' w', after fall_loads fill 1 s [] = Ok (z, w) /\ after (fun _ => mkLoads (-10) (-(1/2)) 0 0) fill' 1 s' [] = Ok (z', w') /\
  bodies (sL z') = map (see (mirror (pG (sP s)))) (bodies (sL z)).
Proof. exact x_C87_mirror. Qed.

(** The pair of points with x and y exchanged. *)
Example C88_flip_example : forall fill fill', exists s s' : state R, plain s /\ plain s' /\ flipped (pG (sP s)) (pG (sP s')) /\
  (exists k, nth k (bv (sG s)) false = true) /\
  (forall k, (k < nodes (pG (sP s)))%nat -> nth (y_node (flip (pG (sP s))) k) (bv (sG s')) false = nth k (bh (sG s)) false /\
                                           nth (y_node (flip (pG (sP s))) k) (bh (sG s')) false = nth k (bv (sG s)) false) /\
  bodies (sL s') = map (see (flip (pG (sP s)))) (bodies (sL s)) /\ (length (bodies (sL s)) = 2)%nat /\
  during fall_loads fill 1 s [] (placed (sP s)) /\
  exists z w z' w', after fall_loads fill 1 s [] = Ok (z, w) /\ after (fun _ => mkLoads (-10) (PI / 2 - 1/2) 0 0) fill' 1 s' [] = Ok (z', w') /\
  bodies (sL z') = map (see (flip (pG (sP s)))) (bodies (sL z)).
Proof. exact x_C88_flip. Qed.
