(** * A falling body and the time step: C152.
    Statements only; the proofs are in ThmStride.v. *)
From Coq Require Import ZArith Reals List Bool Arith Lra Lia.
From RecordUpdate Require Import RecordUpdate.
From Verif Require Import State NumR Spec SpecLaws SpecStep SpecScheme SpecView LibList LibR ModelGrid ModelConstit ModelParticle ModelMPList
  ModelIntegr ModelMain ProofsGrid ProofsMap ProofsP2G ProofsWalls ProofsLaws ProofsInOut ProofsHist Concrete
  ThmMapping ThmWalls ThmLaws ThmInOut ThmHist ProofsStep ProofsPoints ThmStep ThmBalance ThmEnergy ThmFall ThmGeo ProofsScheme ProofsView ThmScheme ThmView ThmSpin ThmAngular ThmBeat ThmObserver ThmSilent ThmCells ThmMerge ThmJump ThmNewton ThmDrop.
Import ListNotations.
From Verif Require Import ThmStride.
Local Open Scope R_scope.

(** Two runs of one body, on any two grids, that take different time steps to the same time:
    the momentum is the same, and the centres of mass differ by half the time that has passed
    times the difference of the time steps times the weight. *)
Theorem C152_steps : forall uf1 uf2 fill g th n m (s1 s2 : state R) tr, falling uf1 g th n s1 -> falling uf2 g th m s2 ->
  bodies (sL s1) = bodies (sL s2) -> p_damping (sP s1) = p_damping (sP s2) -> INR n * p_dt (sP s1) = INR m * p_dt (sP s2) ->
  exists r1 r2 tr1 tr2, after uf1 fill n s1 tr = Ok (r1, tr1) /\ after uf2 fill m s2 tr = Ok (r2, tr2) /\ forall a,
  let W := (if p_damping (sP s1) then 7/10 else 1) * pull a (mkV3 (g * sin th) (g * cos th) 0) (bodies (sL s1)) in
  drive a (bodies (sL r1)) = drive a (bodies (sL r2)) /\
  moment a (bodies (sL r1)) - moment a (bodies (sL r2)) = INR n * p_dt (sP s1) * (p_dt (sP s1) - p_dt (sP s2)) / 2 * W.
Proof. exact p_C152_steps. Qed.
Print Assumptions C152_steps.

(** A point of mass two that falls for a tenth of a second, by one step or by two. *)
Example C152_steps_example : forall g, -1 <= g <= 1 -> exists s1 s2 : state R, falling (down g) g 0 1 s1 /\ falling (down g) g 0 2 s2 /\ bodies (sL s1) = bodies (sL s2) /\ p_damping (sP s1) = p_damping (sP s2) /\
  p_dt (sP s1) = 1/10 /\ p_dt (sP s2) = 1/20 /\ INR 1 * p_dt (sP s1) = INR 2 * p_dt (sP s2) /\
  (if p_damping (sP s1) then 7/10 else 1) * pull AY (mkV3 (g * sin 0) (g * cos 0) 0) (bodies (sL s1)) = 2 * g.
Proof. exact x_C152_steps. Qed.

(** The place to which a body falls in a given time depends on the time step. *)
Theorem C152_place_refuted : forall fill g, -1 <= g <= 1 -> g <> 0 -> exists (s1 s2 r1 r2 : state R) n m tr1 tr2, falling (down g) g 0 n s1 /\ falling (down g) g 0 m s2 /\
  bodies (sL s1) = bodies (sL s2) /\ p_damping (sP s1) = p_damping (sP s2) /\ INR n * p_dt (sP s1) = INR m * p_dt (sP s2) /\
  after (down g) fill n s1 [] = Ok (r1, tr1) /\ after (down g) fill m s2 [] = Ok (r2, tr2) /\ moment AY (bodies (sL r1)) <> moment AY (bodies (sL r2)).
Proof. exact p_C152_place_refuted. Qed.
Print Assumptions C152_place_refuted.
