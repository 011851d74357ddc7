(** * The centre of mass of a falling body: C149.
    Statements only; the proofs are in ThmDrop.v. *)
From Coq Require Import ZArith Reals List Bool Arith Lra Lia.
From RecordUpdate Require Import RecordUpdate.
From Verif Require Import State NumR Spec SpecLaws SpecStep SpecScheme SpecView LibList LibR ModelGrid ModelConstit ModelParticle ModelMPList
  ModelIntegr ModelMain ProofsGrid ProofsMap ProofsP2G ProofsWalls ProofsLaws ProofsInOut ProofsHist Concrete
  ThmMapping ThmWalls ThmLaws ThmInOut ThmHist ProofsStep ProofsPoints ThmStep ThmBalance ThmEnergy ThmFall ThmGeo ProofsScheme ProofsView ThmScheme ThmView ThmSpin ThmAngular ThmBeat ThmObserver ThmSilent ThmCells ThmMerge ThmJump ThmNewton.
Import ListNotations.
From Verif Require Import ThmDrop.
Local Open Scope R_scope.

(** Any body without walls under constant gravity, of which all points touch heavy nodes
    only: after [n] steps its momentum has grown by [n dt] times the weight of the points of
    the first material, and its centre of mass has followed; with [damping] only 0.7 of the
    weight counts. *)
Theorem C149_falls : forall uf fill g th n (s : state R) tr, plain s -> wall_free (bv (sG s)) (bh (sG s)) -> 0 <= p_Mtol (sP s) -> (forall P, no_surface (sP s) (uf P)) ->
  (forall P, ld_g (uf P) = g /\ ld_theta (uf P) = th) -> unloaded (bodies (sL s)) ->
  (forall k, (k < n)%nat -> let B := t_run uf k (sP s) (sG s) (bodies (sL s)) in all_heavy (scheme_at uf k (sP s) (sG s)) B /\
    Forall (fun q => in_dom (pG (sP s)) (q_x q) /\ (p_check (sP s) = true -> vz (q_x q) = 0)) B) ->
  exists s' tr', after uf fill n s tr = Ok (s', tr') /\ forall a,
  let W := (if p_damping (sP s) then 7/10 else 1) * pull a (mkV3 (g * sin th) (g * cos th) 0) (bodies (sL s)) in let h := p_dt (sP s) in
  drive a (bodies (sL s')) = drive a (bodies (sL s)) + INR n * h * W /\
  moment a (bodies (sL s')) = moment a (bodies (sL s)) + INR n * h * drive a (bodies (sL s)) + INR n * (INR n + 1) / 2 * (h * h) * W.
Proof. exact p_C149_falls. Qed.
Print Assumptions C149_falls.

(** Two points of mass two each that collide while they fall. *)
Example C149_falls_example : forall g, exists s : state R, plain s /\ p_damping (sP s) = true /\ wall_free (bv (sG s)) (bh (sG s)) /\ 0 <= p_Mtol (sP s) /\ (forall P, no_surface (sP s) (down g P)) /\
  (forall P, ld_g (down g P) = g /\ ld_theta (down g P) = 0) /\ unloaded (bodies (sL s)) /\
  (forall k, (k < 1)%nat -> let B := t_run (down g) k (sP s) (sG s) (bodies (sL s)) in all_heavy (scheme_at (down g) k (sP s) (sG s)) B /\
    Forall (fun q => in_dom (pG (sP s)) (q_x q) /\ (p_check (sP s) = true -> vz (q_x q) = 0)) B) /\
  pull AY (mkV3 (g * sin 0) (g * cos 0) 0) (bodies (sL s)) = 4 * g /\ p_dt (sP s) = 1/10 /\ drive AY (bodies (sL s)) = 0.
Proof. exact x_C149_falls. Qed.

(** With [damping] a body falls with 0.7 of the gravity that the script sets. *)
Theorem C149_damped_refuted : forall fill g, g <> 0 -> exists (s s' : state R) tr, plain s /\ p_damping (sP s) = true /\ wall_free (bv (sG s)) (bh (sG s)) /\ Forall (fun q => q_first q = true /\ in_dom (pG (sP s)) (q_x q)) (bodies (sL s)) /\
  after (down g) fill 1 s [] = Ok (s', tr) /\ let M := Rsum (map q_m (bodies (sL s))) in 0 < M /\
  drive AY (bodies (sL s')) = drive AY (bodies (sL s)) + p_dt (sP s) * (7/10 * (M * g)) /\ drive AY (bodies (sL s')) <> drive AY (bodies (sL s)) + p_dt (sP s) * (M * g).
Proof. exact p_C149_damped_refuted. Qed.
Print Assumptions C149_damped_refuted.
