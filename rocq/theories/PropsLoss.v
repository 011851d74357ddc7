(** * The energy of a falling body: C151.
    Statements only; the proofs are in ThmLoss.v. *)
From Coq Require Import ZArith Reals List Bool Arith Lra Lia.
From RecordUpdate Require Import RecordUpdate.
From Verif Require Import State NumR Spec SpecLaws SpecStep SpecScheme SpecView LibList LibR ModelGrid ModelConstit ModelParticle ModelMPList
  ModelIntegr ModelMain ProofsGrid ProofsMap ProofsP2G ProofsWalls ProofsLaws ProofsInOut ProofsHist Concrete
  ThmMapping ThmWalls ThmLaws ThmInOut ThmHist ProofsStep ProofsPoints ThmStep ThmBalance ThmEnergy ThmFall ThmGeo ProofsScheme ProofsView ThmScheme ThmView ThmSpin ThmAngular ThmBeat ThmObserver ThmSilent ThmCells ThmMerge ThmJump ThmNewton ThmDrop.
Import ListNotations.
From Verif Require Import ThmLoss.
Local Open Scope R_scope.

(** Any body without walls and without [damping] under constant gravity, of which all points
    touch heavy nodes only: after [n] steps the energy of its centre of mass is lower by
    [n dt^2 M g^2 / 2], that is by a part of the time step times the time that has passed. *)
Theorem C151_loss : forall uf fill g th n (s : state R) tr, plain s -> p_damping (sP s) = false -> wall_free (bv (sG s)) (bh (sG s)) -> 0 <= p_Mtol (sP s) ->
  (forall P, no_surface (sP s) (uf P)) -> (forall P, ld_g (uf P) = g /\ ld_theta (uf P) = th) -> (forall q, In q (bodies (sL s)) -> q_first q = true) ->
  Rsum (map q_m (bodies (sL s))) <> 0 ->
  (forall k, (k < n)%nat -> let B := t_run uf k (sP s) (sG s) (bodies (sL s)) in all_heavy (scheme_at uf k (sP s) (sG s)) B /\
    Forall (fun q => in_dom (pG (sP s)) (q_x q) /\ (p_check (sP s) = true -> vz (q_x q) = 0)) B) ->
  exists s' tr', after uf fill n s tr = Ok (s', tr') /\ forall a,
  let V := mkV3 (g * sin th) (g * cos th) 0 in let M := Rsum (map q_m (bodies (sL s))) in
  centre_energy M V a (bodies (sL s')) = centre_energy M V a (bodies (sL s)) - INR n * (p_dt (sP s) * p_dt (sP s)) * (M * (comp a V * comp a V)) / 2.
Proof. exact p_C151_loss. Qed.
Print Assumptions C151_loss.

(** Two points of mass two each that collide while they fall, without damping. *)
Example C151_loss_example : forall g, exists s : state R, plain s /\ p_damping (sP s) = false /\ wall_free (bv (sG s)) (bh (sG s)) /\ 0 <= p_Mtol (sP s) /\ (forall P, no_surface (sP s) (down g P)) /\
  (forall P, ld_g (down g P) = g /\ ld_theta (down g P) = 0) /\ (forall q, In q (bodies (sL s)) -> q_first q = true) /\ Rsum (map q_m (bodies (sL s))) = 4 /\ p_dt (sP s) = 1/10 /\
  (forall k, (k < 1)%nat -> let B := t_run (down g) k (sP s) (sG s) (bodies (sL s)) in all_heavy (scheme_at (down g) k (sP s) (sG s)) B /\
    Forall (fun q => in_dom (pG (sP s)) (q_x q) /\ (p_check (sP s) = true -> vz (q_x q) = 0)) B).
Proof. exact x_C151_loss. Qed.

(** A falling body does not keep the energy of its centre of mass. *)
Theorem C151_kept_refuted : forall fill g, g <> 0 -> exists (s s' : state R) tr, plain s /\ p_damping (sP s) = false /\ wall_free (bv (sG s)) (bh (sG s)) /\ Forall (fun q => q_first q = true /\ in_dom (pG (sP s)) (q_x q)) (bodies (sL s)) /\
  after (down g) fill 1 s [] = Ok (s', tr) /\ let M := Rsum (map q_m (bodies (sL s))) in 0 < M /\
  centre_energy M (mkV3 0 g 0) AY (bodies (sL s')) < centre_energy M (mkV3 0 g 0) AY (bodies (sL s)).
Proof. exact p_C151_kept_refuted. Qed.
Print Assumptions C151_kept_refuted.
