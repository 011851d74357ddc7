(** * How far a change can be felt: C106.
    Statements only; the proofs are in ThmReach.v. *)
From Coq Require Import ZArith Reals List Bool Arith Lra Lia.
From Verif Require Import State NumR Spec SpecLaws SpecStep SpecScheme SpecLocal LibList LibR ModelGrid ModelConstit ModelParticle ModelMPList
  ModelIntegr ModelMain ProofsGrid ProofsMap ProofsP2G ProofsWalls ProofsLaws ProofsInOut ProofsHist Concrete
  ThmMapping ThmWalls ThmLaws ThmInOut ThmHist ProofsStep ProofsPoints ThmStep ThmBalance ThmEnergy ThmFall ThmGeo ProofsScheme ThmScheme ProofsLocal ThmLocal ThmApart ThmAlone.
Import ListNotations.
From Verif Require Import ThmReach.
Local Open Scope R_scope.

(** A change is felt at most five cells further after every pass: if two simulations start with the same points within
    [c + 5 n] cells of a place, then after [n] passes they have the same points, in the same state, within [c] cells of it. *)
Theorem C106_reach : forall uf fill n (s s1 : state R) tr tr1 S0 S1 c x, whole s -> whole s1 -> sP s1 = sP s -> sG s1 = sG s ->
  sol0 (sL s) = Ok S0 -> sol0 (sL s1) = Ok S1 -> s_rho S1 = s_rho S0 ->
  paced uf fill n s tr -> paced uf fill n s1 tr1 ->
  around (pG (sP s)) (c + 5 * INR n) x (cloud (sP s) (sL s)) = around (pG (sP s)) (c + 5 * INR n) x (cloud (sP s) (sL s1)) ->
  exists s' tr' s1' tr1', after uf fill n s tr = Ok (s', tr') /\ after uf fill n s1 tr1 = Ok (s1', tr1') /\
    around (pG (sP s)) c x (cloud (sP s) (sL s')) = around (pG (sP s)) c x (cloud (sP s) (sL s1')).
Proof. exact p_C106_reach. Qed.
Print Assumptions C106_reach.

(** An elastic body at rest with an intruder moving on one or another place far away. *)
Example C106_reach_example : forall fill, exists (s s1 : state R) S0 c x, whole s /\ whole s1 /\ sP s1 = sP s /\ sG s1 = sG s /\
  sol0 (sL s) = Ok S0 /\ sol0 (sL s1) = Ok S0 /\ paced no_loads fill 1 s [] /\ paced no_loads fill 1 s1 [] /\
  cloud (sP s) (sL s) <> cloud (sP s) (sL s1) /\ around (pG (sP s)) c x (cloud (sP s) (sL s)) <> [] /\
  around (pG (sP s)) (c + 5 * INR 1) x (cloud (sP s) (sL s)) = around (pG (sP s)) (c + 5 * INR 1) x (cloud (sP s) (sL s1)).
Proof. exact x_C106_reach. Qed.
