(** * Segregation and the total mass of every size class: C111.
    Statements only; the proofs are in ThmSieve.v. *)
From Coq Require Import ZArith Reals List Bool Arith Lra Lia.
From RecordUpdate Require Import RecordUpdate.
From Verif Require Import State NumR Spec SpecLaws SpecStep LibList LibR ModelGrid ModelConstit ModelParticle ModelMPList
  ModelIntegr ModelMain ProofsGrid ProofsMap ProofsP2G ProofsWalls ProofsLaws ProofsInOut ProofsHist Concrete
  ThmMapping ThmWalls ThmLaws ThmInOut ThmHist ProofsStep ProofsPoints ThmStep ThmSeg ThmFrac ThmSift ThmLocal ThmGrade.
Import ListNotations.
From Verif Require Import ThmSieve.
Local Open Scope R_scope.

(** A step that segregates changes the total mass of a class by what the grid adds, with the masses of the nodes as
    weights. *)
Theorem C111_balance : forall uf fill (s s' : state R) i, proper (pG (sP s)) -> grid_ok (pG (sP s)) (sG s) ->
  all_live (sL s) (fun _ p => in_dom (pG (sP s)) (px p)) -> tight (sP s) -> lasting (sL s) ->
  p_seg (sP s) = true -> p_norm (sP s) = false -> time_march uf fill s = Ok s' ->
  class_mass i (sL s') = class_mass i (sL s) + gained i (sP s) (sG s').
Proof. exact p_C111_balance. Qed.
Print Assumptions C111_balance.

(** Instance: C111_balance_example in PropsCasesRun.v. *)

(** The claim holds if the nodes all weigh the same and nothing diffuses: the total mass of every class stays. *)
Theorem C111_even : forall uf fill (s s' : state R) i m, proper (pG (sP s)) -> grid_ok (pG (sP s)) (sG s) ->
  all_live (sL s) (fun _ p => in_dom (pG (sP s)) (px p)) -> tight (sP s) -> lasting (sL s) ->
  p_seg (sP s) = true -> p_norm (sP s) = false -> p_l (sP s) = Some 0 -> (i < ns (pG (sP s)))%nat ->
  (forall k, (k < nodes (pG (sP s)))%nat -> psum (sL s) (fun _ p => pm p * hat (pG (sP s)) (px p) k) = m) -> p_Mtol (sP s) < m ->
  time_march uf fill s = Ok s' -> class_mass i (sL s') = class_mass i (sL s).
Proof. exact p_C111_even. Qed.
Print Assumptions C111_even.

(** Two points of different mixtures, side by side, in a sheared cell. *)
Example C111_even_example : forall uf fill, exists (s s' : state R), proper (pG (sP s)) /\ grid_ok (pG (sP s)) (sG s) /\
  all_live (sL s) (fun _ p => in_dom (pG (sP s)) (px p)) /\ tight (sP s) /\ lasting (sL s) /\
  p_seg (sP s) = true /\ p_norm (sP s) = false /\ p_l (sP s) = Some 0 /\ (1 < ns (pG (sP s)))%nat /\
  (forall k, (k < nodes (pG (sP s)))%nat -> psum (sL s) (fun _ p => pm p * hat (pG (sP s)) (px p) k) = 1) /\ p_Mtol (sP s) < 1 /\
  time_march uf fill s = Ok s' /\ class_mass 0 (sL s) = 3/2 /\ class_mass 0 (sL s') = 3/2.
Proof. exact x_C111_even. Qed.
