(** * Bodies apart do not feel each other, and only the density of the points counts: C99, C100.
    Statements only; the proofs are in ThmApart.v. *)
From Coq Require Import ZArith Reals List Bool Arith Lra Lia.
From Verif Require Import State NumR Spec SpecLaws SpecStep SpecScheme LibList LibR ModelGrid ModelConstit ModelParticle ModelMPList
  ModelIntegr ModelMain ProofsGrid ProofsMap ProofsP2G ProofsWalls ProofsLaws ProofsInOut ProofsHist Concrete
  ThmMapping ThmWalls ThmLaws ThmInOut ThmHist ProofsStep ProofsPoints ThmStep ThmBalance ThmEnergy ThmFall ThmGeo ProofsScheme ThmScheme.
Import ListNotations.
From Verif Require Import ThmApart.
Local Open Scope R_scope.

(** A body all of whose points stay two cells away, along one of the axes, from all other points moves as if the
    others were not there: the run that has only these points gives them, at every pass, exactly the positions,
    velocities and stresses that they have in the full run. *)
Theorem C99_alone : forall uf fill n (s s1 : state R) m tr tr1, plain s -> plain s1 -> sP s1 = sP s -> sG s1 = sG s ->
  (forall P, no_surface (sP s) (uf P)) -> length m = length (bodies (sL s)) ->
  bodies (sL s1) = pick m (bodies (sL s)) ->
  (forall j, (j < n)%nat -> exists s' tr', after uf fill j s tr = Ok (s', tr') /\
     Forall (fun q => in_dom (pG (sP s)) (q_x q) /\ (p_check (sP s) = true -> vz (q_x q) = 0)) (bodies (sL s')) /\
     separate (pG (sP s)) m (bodies (sL s'))) ->
  exists s' tr' s1' tr1', after uf fill n s tr = Ok (s', tr') /\ after uf fill n s1 tr1 = Ok (s1', tr1') /\
    bodies (sL s1') = pick m (bodies (sL s')).
Proof. exact p_C99_alone. Qed.
Print Assumptions C99_alone.

(** A point may be replaced by any number of points at the same place and in the same state that share its mass and
    volume, each point in proportions of its own: every pass gives all of them the position, velocity and stress of
    the point they replace. *)
Theorem C100_parts : forall uf fill n (s s1 : state R) W tr tr1, plain s -> plain s1 -> sP s1 = sP s -> sG s1 = sG s ->
  (forall P, no_surface (sP s) (uf P)) -> Forall (fun ws => Rsum ws = 1) W -> length W = length (bodies (sL s)) ->
  bodies (sL s1) = cut W (bodies (sL s)) ->
  (forall j, (j < n)%nat -> exists s' tr', after uf fill j s tr = Ok (s', tr') /\
     Forall (fun q => in_dom (pG (sP s)) (q_x q) /\ (p_check (sP s) = true -> vz (q_x q) = 0)) (bodies (sL s'))) ->
  exists s' tr' s1' tr1', after uf fill n s tr = Ok (s', tr') /\ after uf fill n s1 tr1 = Ok (s1', tr1') /\
    bodies (sL s1') = cut W (bodies (sL s')).
Proof. exact p_C100_parts. Qed.
Print Assumptions C100_parts.

(** Two points, two cells and a half apart, one of which is left out. *)
Example C99_alone_example : forall fill, exists s s1 m, plain s /\ plain s1 /\ sP s1 = sP s /\ sG s1 = sG s /\ (forall P, no_surface (sP s) (fall_loads P)) /\
  length m = length (bodies (sL s)) /\ bodies (sL s1) = pick m (bodies (sL s)) /\
  (length (bodies (sL s)) = 2 /\ length (bodies (sL s1)) = 1)%nat /\
  (forall j, (j < 1)%nat -> exists s' tr', after fall_loads fill j s [] = Ok (s', tr') /\
     Forall (fun q => in_dom (pG (sP s)) (q_x q) /\ (p_check (sP s) = true -> vz (q_x q) = 0)) (bodies (sL s')) /\
     separate (pG (sP s)) m (bodies (sL s'))) /\
  exists s' tr' s1' tr1', after fall_loads fill 1 s [] = Ok (s', tr') /\ after fall_loads fill 1 s1 [] = Ok (s1', tr1') /\
    bodies (sL s1') = pick m (bodies (sL s')).
Proof. exact x_C99_alone. Qed.

(** Two points, one of them cut in three parts. *)
Example C100_parts_example : forall fill, exists s s1 W, plain s /\ plain s1 /\ sP s1 = sP s /\ sG s1 = sG s /\ (forall P, no_surface (sP s) (fall_loads P)) /\
  Forall (fun ws => Rsum ws = 1) W /\ length W = length (bodies (sL s)) /\ bodies (sL s1) = cut W (bodies (sL s)) /\
  (length (bodies (sL s)) = 2 /\ length (bodies (sL s1)) = 4)%nat /\
  exists s' tr' s1' tr1', after fall_loads fill 1 s [] = Ok (s', tr') /\ after fall_loads fill 1 s1 [] = Ok (s1', tr1') /\
    bodies (sL s1') = cut W (bodies (sL s')).
Proof. exact x_C100_parts. Qed.
