(** * The density of a particle: C64.
    Statements only; the proofs are in ThmDensity.v. *)
From Coq Require Import ZArith Reals List Bool Arith Lra Lia.
From Verif Require Import State NumR Spec SpecLaws SpecStep LibList LibR ModelGrid ModelConstit ModelParticle ModelMPList
  ModelIntegr ModelMain ProofsGrid ProofsMap ProofsP2G ProofsWalls ProofsLaws ProofsInOut ProofsHist Concrete
  ThmMapping ThmWalls ThmLaws ThmInOut ThmHist ProofsStep ProofsPoints ThmStep ThmBalance ThmEnergy.
Import ListNotations.
From Verif Require Import ThmDensity.
Local Open Scope R_scope.

(** After a step the density of a point is the tent-weighted sum, at the place
    where the point was, of nodal mass over nodal volume; nodes below the mass
    threshold count as empty. *)
Theorem C64_density : forall uf fill (s s' : state R), proper (pG (sP s)) -> grid_ok (pG (sP s)) (sG s) ->
  all_live (sL s) (fun _ p => in_dom (pG (sP s)) (px p)) -> shut (sP s) ->
  (forall ph, In ph (sL s) -> s_law (ph_sol ph) <> Rigid) -> time_march uf fill s = Ok s' ->
  Prel (fun _ p p' => prho p' = fsum (nodes (pG (sP s))) (fun k => hat (pG (sP s)) (px p) k *
     (if Rlt_dec (p_Mtol (sP s)) (nth k (gm (sG s')) 0) then nth k (gm (sG s')) 0 / nth k (gV (sG s)) 0 else 0))) (sL s) (sL s').
Proof. exact p_C64_density. Qed.
Print Assumptions C64_density.

(** Hence it lies between any bounds on the nodal densities; in particular a
    uniform nodal density is reproduced, and no density is negative. *)
Theorem C64_between : forall uf fill (s s' : state R) lo hi, proper (pG (sP s)) -> grid_ok (pG (sP s)) (sG s) ->
  all_live (sL s) (fun _ p => in_dom (pG (sP s)) (px p)) -> shut (sP s) ->
  (forall ph, In ph (sL s) -> s_law (ph_sol ph) <> Rigid) -> time_march uf fill s = Ok s' ->
  (forall k, (k < nodes (pG (sP s)))%nat -> p_Mtol (sP s) < nth k (gm (sG s')) 0 ->
     lo <= nth k (gm (sG s')) 0 / nth k (gV (sG s)) 0 <= hi) ->
  (lo <= 0 \/ forall k, (k < nodes (pG (sP s)))%nat -> p_Mtol (sP s) < nth k (gm (sG s')) 0) -> 0 <= hi ->
  all_live (sL s') (fun _ p => lo <= prho p <= hi).
Proof. exact p_C64_between. Qed.
Print Assumptions C64_between.

Example C64_density_example : forall uf fill, exists s s' : state R, proper (pG (sP s)) /\ grid_ok (pG (sP s)) (sG s) /\
  all_live (sL s) (fun _ p => in_dom (pG (sP s)) (px p)) /\ shut (sP s) /\
  (forall ph, In ph (sL s) -> s_law (ph_sol ph) <> Rigid) /\ time_march uf fill s = Ok s' /\ (exists ph p q, In ph (sL s) /\ live ph = [p; q]).
Proof. exact x_C64_density. Qed.

Example C64_between_example : forall uf fill, exists (s s' : state R) hi, proper (pG (sP s)) /\ grid_ok (pG (sP s)) (sG s) /\
  all_live (sL s) (fun _ p => in_dom (pG (sP s)) (px p)) /\ shut (sP s) /\
  (forall ph, In ph (sL s) -> s_law (ph_sol ph) <> Rigid) /\ time_march uf fill s = Ok s' /\
  (forall k, (k < nodes (pG (sP s)))%nat -> p_Mtol (sP s) < nth k (gm (sG s')) 0 ->
     0 <= nth k (gm (sG s')) 0 / nth k (gV (sG s)) 0 <= hi) /\ 0 <= hi.
Proof. exact x_C64_between. Qed.
