(** * The order of the materials: C139.
    Statements only; the proofs are in ThmRank.v. *)
From Coq Require Import ZArith Reals List Bool Arith Lra Lia Permutation.
From RecordUpdate Require Import RecordUpdate.
From Verif Require Import State NumR Spec SpecLaws SpecStep SpecScheme LibList LibR ModelGrid ModelConstit ModelParticle ModelMPList
  ModelIntegr ModelMain ProofsGrid ProofsMap ProofsP2G ProofsWalls ProofsLaws ProofsInOut ProofsHist Concrete
  ThmMapping ThmWalls ThmLaws ThmInOut ThmHist ProofsStep ProofsPoints ThmStep ThmBalance ThmEnergy ThmFall ThmGeo ProofsScheme ThmScheme ThmAngular.
Import ListNotations.
From Verif Require Import ThmRank.
Local Open Scope R_scope.

(** Points can be listed in any order, and shared out among the materials in
    any way, as long as they keep their properties and those of the first
    material stay in the first material. *)
Theorem C139_regroup : forall uf fill fill' n (s t : state R) tr tr', plain s -> plain t -> sP t = sP s -> sG t = sG s -> Permutation (bodies (sL s)) (bodies (sL t)) ->
  (forall P, no_surface (sP s) (uf P)) ->
  (forall j, (j < n)%nat -> Forall (fun q => in_dom (pG (sP s)) (q_x q) /\ (p_check (sP s) = true -> vz (q_x q) = 0)) (t_run uf j (sP s) (sG s) (bodies (sL s)))) ->
  exists s' sr t' tr'', after uf fill n s tr = Ok (s', sr) /\ after uf fill' n t tr' = Ok (t', tr'') /\ Permutation (bodies (sL s')) (bodies (sL t')).
Proof. exact p_C139_regroup. Qed.
Print Assumptions C139_regroup.

(** The same points, with the two materials in the other order: they fall at another speed. *)
Theorem C139_order_refuted : forall fill, exists (s t s' t' : state R) tr tr', plain s /\ plain t /\ sP t = sP s /\ sG t = sG s /\ sL t = rev (sL s) /\
  after falling fill 1 s [] = Ok (s', tr) /\ after falling fill 1 t [] = Ok (t', tr') /\
  Rsum (map (fun q => q_m q * comp AY (q_v q)) (bodies (sL s'))) = - (2/10) /\ Rsum (map (fun q => q_m q * comp AY (q_v q)) (bodies (sL t'))) = - (4/10).
Proof. exact p_C139_order_refuted. Qed.
Print Assumptions C139_order_refuted.

(** Two groups of points of one material, behind a first material, become one group listed the other way round. *)
Example C139_regroup_example : forall fill, exists (s t s' t' : state R) tr tr', plain s /\ plain t /\ length (sL s) = 3%nat /\ length (sL t) = 2%nat /\
  after falling fill 1 s [] = Ok (s', tr) /\ after falling fill 1 t [] = Ok (t', tr') /\ bodies (sL s) <> bodies (sL t) /\ Permutation (bodies (sL s')) (bodies (sL t')).
Proof. exact x_C139_regroup. Qed.
