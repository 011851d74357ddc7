(** * Runs with cyclic boundaries do not depend on where the cylinder is cut: C93.
    Statements only; the proofs are in ThmTurn.v. *)
From Coq Require Import ZArith Reals List Bool Arith Lra Lia.
From Verif Require Import State NumR Spec SpecLaws SpecStep SpecScheme SpecRing LibList LibR ModelGrid ModelConstit ModelParticle ModelMPList
  ModelIntegr ModelMain ProofsGrid ProofsMap ProofsP2G ProofsWalls ProofsLaws ProofsInOut ProofsHist Concrete
  ThmMapping ThmWalls ThmLaws ThmInOut ThmHist ProofsStep ProofsPoints ThmStep ThmBalance ThmEnergy ThmFall ThmGeo ProofsScheme ThmScheme
  ThmView ProofsRing ThmRing ThmSpin.
Import ListNotations.
From Verif Require Import ThmTurn.
Local Open Scope R_scope.

(** Two runs with cyclic_lr that differ only in that all points of the second are carried [c] cells further around the
    cylinder differ only in that after any number of steps, as long as no point leaves the domain or stops exactly on its
    right end. *)
Theorem C93_turn : forall uf fill n c (s t s' t' : state R) tr tt tr' tt', rplain s -> rplain t -> sP t = sP s ->
  bv (sG t) = bv (sG s) -> bh (sG t) = bh (sG s) -> level (pG (sP s)) (sG s) -> (c <= nx (pG (sP s)) - 1)%nat ->
  (forall P, no_surface (sP s) (uf P)) ->
  bodies (sL t) = map (turn (pG (sP s)) c) (bodies (sL s)) ->
  (forall j s1 tr1, (j <= n)%nat -> after uf fill j s tr = Ok (s1, tr1) -> all_live (sL s1) (fun _ p => in_dom (pG (sP s)) (px p))) ->
  (forall j t1 tt1, (j <= n)%nat -> after uf fill j t tt = Ok (t1, tt1) -> all_live (sL t1) (fun _ p => in_dom (pG (sP s)) (px p))) ->
  after uf fill n s tr = Ok (s', tr') -> after uf fill n t tt = Ok (t', tt') ->
  sP t' = sP s' /\ bodies (sL t') = map (turn (pG (sP s)) c) (bodies (sL s')).
Proof. exact p_C93_turn. Qed.
Print Assumptions C93_turn.

(** One of the two runs crosses the seam, the other does not. *)
Example C93_turn_example : forall fill, exists (s t s' t' : state R) tr' tt', rplain s /\ rplain t /\ sP t = sP s /\
  bv (sG t) = bv (sG s) /\ bh (sG t) = bh (sG s) /\ level (pG (sP s)) (sG s) /\ (1 <= nx (pG (sP s)) - 1)%nat /\
  (forall P, no_surface (sP s) (sp_loads P)) /\
  bodies (sL t) = map (turn (pG (sP s)) 1) (bodies (sL s)) /\
  (forall j s1 tr1, (j <= 1)%nat -> after sp_loads fill j s [] = Ok (s1, tr1) -> all_live (sL s1) (fun _ p => in_dom (pG (sP s)) (px p))) /\
  (forall j t1 tt1, (j <= 1)%nat -> after sp_loads fill j t [] = Ok (t1, tt1) -> all_live (sL t1) (fun _ p => in_dom (pG (sP s)) (px p))) /\
  after sp_loads fill 1 s [] = Ok (s', tr') /\ after sp_loads fill 1 t [] = Ok (t', tt') /\ length (bodies (sL s)) = 1%nat.
Proof. exact x_C93_turn. Qed.
