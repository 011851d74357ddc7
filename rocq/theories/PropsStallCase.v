(** * A run with a dynamic time step that ends: C117.
    Statements only; the proofs are in ThmStallCase.v. *)
From Coq Require Import ZArith Reals List Bool Arith Lra Lia.
From RecordUpdate Require Import RecordUpdate.
From Verif Require Import State NumR Spec SpecLaws SpecStep SpecScheme SpecLocal SpecPace LibList LibR ModelGrid ModelConstit ModelParticle ModelMPList
  ModelIntegr ModelMain ProofsGrid ProofsMap ProofsP2G ProofsWalls ProofsLaws ProofsInOut ProofsHist Concrete
  ThmMapping ThmWalls ThmLaws ThmInOut ThmHist ProofsStep ProofsPoints ThmStep ThmBalance ThmEnergy ThmFall ThmGeo ProofsScheme ThmScheme ProofsLocal ThmLocal ThmLoop ThmPace ThmStall.
Import ListNotations.
From Verif Require Import ThmStallCase.
Local Open Scope R_scope.

(** An intruder that moves at speed one for a time of one: with half a tenth of a cell per pass it arrives, within 22
    passes. *)
Example C117_bounded_example : forall fill, exists (s : state R), p_dynamic (sP s) = true /\ 0 <= p_dt (sP s) /\ 0 < p_CFL (sP s) /\
  pdx (pG (sP s)) = Some 1 /\ pdy (pG (sP s)) = Some 1 /\
  (forall s1 tr s2 tr', going still_loads fill s s1 -> p_t (sP s1) <= p_tf (sP s1) -> pass still_loads fill s1 tr = Ok (s2, tr') -> moderate 1 1 s2) /\
  p_tf (sP s) - p_t (sP s) < INR 21 * (p_CFL (sP s) * Rmin (1/10 * Rmin 1 1 / 1) 1) /\
  main_loop still_loads fill 22 s <> None.
Proof. exact x_C117_bounded. Qed.
