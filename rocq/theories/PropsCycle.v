(** * Elastic points that are strained back and forth: C134.
    Statements only; the proofs are in ThmCycle.v. *)
From Coq Require Import ZArith List Bool Arith Lia Reals Lra.
From RecordUpdate Require Import RecordUpdate.
From Verif Require Import State NumR LibR LibList Spec SpecLaws ModelGrid ModelConstit ModelParticle ModelMPList ModelMain ProofsGrid ProofsMap ProofsLaws ProofsP2G SpecStep ProofsStep ProofsHist Concrete ThmMapping ThmLaws.
Import ListNotations.
Local Existing Instance Num_R.
From Verif Require Import ThmCycle.
Local Open Scope R_scope.

(** The strain is zero after every cycle; the stress is not: it grows towards a
    quarter of the stiffness. *)
Theorem C134_ratchet : forall Pn S0 So ip e p q K g n, s_law So = Elastic -> s_K So = Some K -> s_G So = Some g ->
  cycled Pn S0 So ip e p q -> pstress (p 0%nat) = diag 0 0 0 -> pstrain (p 0%nat) = diag 0 0 0 ->
  pstrain (p (2 * n)%nat) = diag 0 0 0 /\ pstress (p (2 * n)%nat) = diag ((1 - (1 - 16 * (e * e)) ^ n) * ((K + 4 / 3 * g) / 4)) 0 0.
Proof. exact p_C134_ratchet. Qed.
Print Assumptions C134_ratchet.

(** So an elastic point that is back at its strain is not back at its stress. *)
Theorem C134_hooke_refuted : forall Pn S0 So ip e p q K g n, s_law So = Elastic -> s_K So = Some K -> s_G So = Some g ->
  cycled Pn S0 So ip e p q -> pstress (p 0%nat) = diag 0 0 0 -> pstrain (p 0%nat) = diag 0 0 0 ->
  e <> 0 -> 16 * (e * e) < 2 -> 0 < K + 4 / 3 * g -> (0 < n)%nat -> ~ hooke K g (pstrain (p (2 * n)%nat)) (pstress (p (2 * n)%nat)).
Proof. exact p_C134_hooke_refuted. Qed.
Print Assumptions C134_hooke_refuted.

(** However small the strain, enough cycles bring the stress near a quarter of
    the stiffness. *)
Theorem C134_limit : forall Pn S0 So ip e p q K g tol, s_law So = Elastic -> s_K So = Some K -> s_G So = Some g ->
  cycled Pn S0 So ip e p q -> pstress (p 0%nat) = diag 0 0 0 -> pstrain (p 0%nat) = diag 0 0 0 ->
  e <> 0 -> 16 * (e * e) < 2 -> 0 < tol -> exists m, forall n, (m <= n)%nat -> Rabs (xx (pstress (p (2 * n)%nat)) - (K + 4 / 3 * g) / 4) < tol.
Proof. exact p_C134_limit. Qed.
Print Assumptions C134_limit.

(** A point at rest and free of stress, strained by a tenth back and forth. *)
Example C134_ratchet_example : exists P So (p q : nat -> particle R), s_law So = Elastic /\ s_K So = Some 3 /\ s_G So = Some 2 /\ cycled (fun _ => P) So So 0 (1 / 10) p q /\
  pstress (p 0%nat) = diag 0 0 0 /\ pstrain (p 0%nat) = diag 0 0 0 /\ 16 * (1 / 10 * (1 / 10)) < 2 /\ 0 < 3 + 4 / 3 * 2.
Proof. exact x_C134_ratchet. Qed.
