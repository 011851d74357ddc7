(** * The nodal fields of a step that segregates: C112.
    Statements only; the proofs are in ThmSeam.v. *)
From Coq Require Import ZArith Reals List Bool Arith Lra Lia.
From RecordUpdate Require Import RecordUpdate.
From Verif Require Import State NumR Spec SpecLaws SpecStep LibList LibR ModelGrid ModelConstit ModelParticle ModelMPList
  ModelIntegr ModelMain ProofsGrid ProofsMap ProofsP2G ProofsWalls ProofsLaws ProofsInOut ProofsHist Concrete
  ThmMapping ThmWalls ThmLaws ThmInOut ThmHist ProofsStep ProofsPoints ThmStep ThmSeg ThmFrac ThmSift ThmLocal ThmGrade
  ProofsRing ThmFields.
Import ListNotations.
From Verif Require Import ThmSeam.
Local Open Scope R_scope.

(** C112.  After a step that segregates, in a box that nothing leaves or enters, the nodal fields are the sums over the
    points of C76, but for the viscosity: at the two ends of a row it is the sum over the points near both ends. *)
Theorem C112_fields : forall uf fill (s s' : state R), proper (pG (sP s)) -> grid_ok (pG (sP s)) (sG s) -> tight (sP s) ->
  p_seg (sP s) = true ->
  all_live (sL s) (fun ph p => in_dom (pG (sP s)) (px p) /\ s_law (ph_sol ph) <> Dp /\ s_law (ph_sol ph) <> DpRate) ->
  time_march uf fill s = Ok s' ->
  let total f k := pair_sum (sL s) (sL s')
    (fun S p p' => hat (pG (sP s)) (px p) k * (pm p' * shown (p_dt (sP s)) (s_law S) f p')) in
  (forall f k, f <> Fgammadot -> f <> Feta -> nth k (sget f (sG s')) 0 = total f k) /\
  forall j, (j < ny (pG (sP s)))%nat ->
    (forall i, (0 < i < nx (pG (sP s)) - 1)%nat ->
       nth (j * nx (pG (sP s)) + i) (f_eta (sG s')) 0 = total Feta (j * nx (pG (sP s)) + i)%nat) /\
    (forall i, i = 0%nat \/ i = (nx (pG (sP s)) - 1)%nat ->
       nth (j * nx (pG (sP s)) + i) (f_eta (sG s')) 0 =
         total Feta (j * nx (pG (sP s)))%nat + total Feta (j * nx (pG (sP s)) + (nx (pG (sP s)) - 1))%nat).
Proof. exact p_C112_fields. Qed.
Print Assumptions C112_fields.

Example C112_fields_example : forall uf fill, exists (s s' : state R), proper (pG (sP s)) /\ grid_ok (pG (sP s)) (sG s) /\ tight (sP s) /\
  p_seg (sP s) = true /\
  all_live (sL s) (fun ph p => in_dom (pG (sP s)) (px p) /\ s_law (ph_sol ph) <> Dp /\ s_law (ph_sol ph) <> DpRate) /\
  time_march uf fill s = Ok s' /\ exists ph p, In ph (sL s) /\ live ph = [p] /\ s_law (ph_sol ph) = KenSimple /\ ppressure p = -100.
Proof. exact x_C112_fields. Qed.
