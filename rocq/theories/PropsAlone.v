(** * Bodies apart and cut points, for eight materials: C103, C104; the path of an intruder: C105.
    Statements only; the proofs are in ThmAlone.v. *)
From Coq Require Import ZArith Reals List Bool Arith Lra Lia.
From Verif Require Import State NumR Spec SpecLaws SpecStep SpecScheme SpecLocal LibList LibR ModelGrid ModelConstit ModelParticle ModelMPList
  ModelIntegr ModelMain ProofsGrid ProofsMap ProofsP2G ProofsWalls ProofsLaws ProofsInOut ProofsHist Concrete
  ThmMapping ThmWalls ThmLaws ThmInOut ThmHist ProofsStep ProofsPoints ThmStep ThmBalance ThmEnergy ThmFall ThmGeo ProofsScheme ThmScheme ProofsLocal ThmLocal ThmApart.
Import ListNotations.
From Verif Require Import ThmAlone.
Local Open Scope R_scope.

(** Whatever the materials, a body all of whose points stay two cells away, along one of the axes, from all other points
    moves as if the others were not there: the run with only these points gives them exactly the same places,
    velocities, stresses, masses and memories. *)
Theorem C103_alone : forall uf fill n (s s1 : state R) m tr tr1 S0 S1 s1' tr1', whole s -> whole s1 -> sP s1 = sP s -> sG s1 = sG s ->
  sol0 (sL s) = Ok S0 -> sol0 (sL s1) = Ok S1 -> s_rho S1 = s_rho S0 ->
  length m = length (cloud (sP s) (sL s)) -> cloud (sP s) (sL s1) = pick m (cloud (sP s) (sL s)) ->
  (forall j, (j <= n)%nat -> exists s' tr', after uf fill j s tr = Ok (s', tr') /\
     ((j < n)%nat -> Forall (fun q => in_dom (pG (sP s)) (z_x q)) (cloud (sP s) (sL s')) /\ asunder (pG (sP s)) m (cloud (sP s) (sL s')))) ->
  after uf fill n s1 tr1 = Ok (s1', tr1') ->
  exists s' tr', after uf fill n s tr = Ok (s', tr') /\ cloud (sP s) (sL s1') = pick m (cloud (sP s) (sL s')).
Proof. exact p_C103_alone. Qed.
Print Assumptions C103_alone.

(** Whatever the materials, a point may be replaced by any number of points at the same place and in the same state that
    share its mass and volume: every pass gives all of them the place, velocity, stress and memory of the point they
    replace, and their share of its mass. *)
Theorem C104_parts : forall uf fill n (s s1 : state R) W tr tr1 S0 S1 s1' tr1', whole s -> whole s1 -> sP s1 = sP s -> sG s1 = sG s ->
  sol0 (sL s) = Ok S0 -> sol0 (sL s1) = Ok S1 -> s_rho S1 = s_rho S0 -> shares W ->
  length W = length (cloud (sP s) (sL s)) -> cloud (sP s) (sL s1) = carve W (cloud (sP s) (sL s)) ->
  (forall j, (j <= n)%nat -> exists s' tr', after uf fill j s tr = Ok (s', tr') /\
     ((j < n)%nat -> Forall (fun q => in_dom (pG (sP s)) (z_x q)) (cloud (sP s) (sL s')))) ->
  after uf fill n s1 tr1 = Ok (s1', tr1') ->
  exists s' tr', after uf fill n s tr = Ok (s', tr') /\ cloud (sP s) (sL s1') = carve W (cloud (sP s) (sL s')).
Proof. exact p_C104_parts. Qed.
Print Assumptions C104_parts.

(** A Bingham body and a Von Mises body two cells apart, under a load and above a belt. *)
Example C103_alone_example : forall fill, exists (s s1 : state R) m S0, whole s /\ whole s1 /\ sP s1 = sP s /\ sG s1 = sG s /\
  sol0 (sL s) = Ok S0 /\ sol0 (sL s1) = Ok S0 /\
  length m = length (cloud (sP s) (sL s)) /\ cloud (sP s) (sL s1) = pick m (cloud (sP s) (sL s)) /\
  (length (cloud (sP s) (sL s)) = 2 /\ length (cloud (sP s) (sL s1)) = 1)%nat /\
  (forall j, (j <= 1)%nat -> exists s' tr', after mix_loads fill j s [] = Ok (s', tr') /\
     ((j < 1)%nat -> Forall (fun q => in_dom (pG (sP s)) (z_x q)) (cloud (sP s) (sL s')) /\ asunder (pG (sP s)) m (cloud (sP s) (sL s')))) /\
  exists s' tr' s1' tr1', after mix_loads fill 1 s1 [] = Ok (s1', tr1') /\ after mix_loads fill 1 s [] = Ok (s', tr') /\
     cloud (sP s) (sL s1') = pick m (cloud (sP s) (sL s')).
Proof. exact x_C103_alone. Qed.

(** An intruder and grains in a box with a load and a belt; the point of the grains is cut in two. *)
Example C104_parts_example : forall fill, exists (s s1 : state R) W S0, whole s /\ whole s1 /\ sP s1 = sP s /\ sG s1 = sG s /\
  sol0 (sL s) = Ok S0 /\ sol0 (sL s1) = Ok S0 /\ shares W /\
  length W = length (cloud (sP s) (sL s)) /\ cloud (sP s) (sL s1) = carve W (cloud (sP s) (sL s)) /\
  (length (cloud (sP s) (sL s)) = 2 /\ length (cloud (sP s) (sL s1)) = 3)%nat /\
  (forall j, (j <= 1)%nat -> exists s' tr', after mix_loads fill j s [] = Ok (s', tr') /\
     ((j < 1)%nat -> Forall (fun q => in_dom (pG (sP s)) (z_x q)) (cloud (sP s) (sL s')))) /\
  exists s' tr' s1' tr1', after mix_loads fill 1 s1 [] = Ok (s1', tr1') /\ after mix_loads fill 1 s [] = Ok (s', tr') /\
     cloud (sP s) (sL s1') = carve W (cloud (sP s) (sL s')).
Proof. exact x_C104_parts. Qed.

(** Whatever it meets, an intruder moves on a straight line with the velocity given in the input: after any number of
    passes its points have moved by that many time steps times the velocity, and keep their mass and volume. *)
Theorem C105_path : forall uf fill n (s : state R) tr s' tr' S0 w i q, whole s -> sol0 (sL s) = Ok S0 -> p_intruder_v (sP s) = Some w ->
  nth_error (cloud (sP s) (sL s)) i = Some q -> z_stuff q = Intruder ->
  (forall j, (j <= n)%nat -> exists s' tr', after uf fill j s tr = Ok (s', tr') /\
     ((j < n)%nat -> Forall (fun q => in_dom (pG (sP s)) (z_x q)) (cloud (sP s) (sL s')))) ->
  after uf fill n s tr = Ok (s', tr') ->
  exists q', nth_error (cloud (sP s) (sL s')) i = Some q' /\ z_stuff q' = Intruder /\ z_m q' = z_m q /\ z_V q' = z_V q /\ z_x q' = carried w (p_dt (sP s)) n (z_x q) /\
    (n <> 0%nat -> z_v q' = w).
Proof. exact p_C105_path. Qed.
Print Assumptions C105_path.

(** The intruder among the five materials. *)
Example C105_path_example : forall fill, exists (s : state R) S0 q, whole s /\ sol0 (sL s) = Ok S0 /\ p_intruder_v (sP s) = Some (mkV3 0 (-1) 0) /\
  nth_error (cloud (sP s) (sL s)) 2 = Some q /\ z_stuff q = Intruder /\
  (forall j, (j <= 1)%nat -> exists s' tr', after mix_loads fill j s [] = Ok (s', tr') /\
     ((j < 1)%nat -> Forall (fun q => in_dom (pG (sP s)) (z_x q)) (cloud (sP s) (sL s')))) /\
  exists s' tr' q', after mix_loads fill 1 s [] = Ok (s', tr') /\ nth_error (cloud (sP s) (sL s')) 2 = Some q' /\
    z_x q' = carried (mkV3 0 (-1) 0) (p_dt (sP s)) 1 (z_x q).
Proof. exact x_C105_path. Qed.
