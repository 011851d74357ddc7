(** * Cases that meet the hypotheses: parameters and output files *)
From Coq Require Import ZArith Reals List Bool Arith Lra Lia Ascii String.
From Verif Require Import State NumR Spec LibR ModelGrid ModelPlot ModelInit ProofsGrid ThmPlot ThmInit.
Import ListNotations.
Local Open Scope string_scope.
Local Open Scope R_scope.

(** An input with a time, a time step, a box, one elastic phase and no name. *)
Definition plain_input : input R :=
  mkInput (fun a => if String.eqb a "max_g" then Some (VNum 10) else if String.eqb a "t_f" then Some (VNum 3) else if String.eqb a "dt" then Some (VInt 2)
                    else if String.eqb a "q_v" then Some (VNum 4) else None)
    (fun a => if String.eqb a "box" then Some (VBool true) else None) (fun a => if String.eqb a "nx" then Some (VInt 5) else None) (fun _ => None)
    (inl (fun a => if String.eqb a "law" then Some (VStr "elastic") else None)).
(** The same with a list of grain sizes. *)
Definition sized_input (l : list R) : input R :=
  mkInput (iP plain_input) (iB plain_input) (fun a => if String.eqb a "s" then Some (VList l) else iG plain_input a) (iO plain_input) (iS plain_input).
Lemma plain_input_ok : exists f, get_parameters "chute" plain_input = Ok f.
Proof.
  unfold get_parameters. cbn. unR. unfold Reqb. destruct (Req_EM_T 2 0); [lra|]. eexists. reflexivity.
Qed.
Example x_C47_kept : exists f, get_parameters "chute" plain_input = Ok f /\ iP plain_input "t_f" = Some (VNum 3) /\ fP f "t_f" = Some (VNum 3) /\
  iG plain_input "nx" = Some (VInt 5) /\ fG f "nx" = Some (VInt 5).
Proof.
  destruct plain_input_ok as [f E]. exists f. split; [exact E|]. destruct (p_C47_kept _ _ _ E) as (A & _ & B & _).
  split; [reflexivity|]. split; [apply A; [reflexivity|discriminate..]|]. split; [reflexivity|apply B; reflexivity].
Qed.
Example x_C47_nothing_else : exists f, get_parameters "chute" plain_input = Ok f /\ ~ In "nonsense" (map fst table_P) /\
  ~ In "nonsense" ["mode"; "phases"; "save_dir"; "nt"; "g"; "q_v"; "q_h"] /\ fP f "nonsense" = None.
Proof.
  destruct plain_input_ok as [f E]. exists f. split; [exact E|].
  assert (X : ~ In "nonsense" (map fst table_P)) by (cbn; intuition discriminate).
  assert (Y : ~ In "nonsense" ["mode"; "phases"; "save_dir"; "nt"; "g"; "q_v"; "q_h"]) by (cbn; intuition discriminate).
  split; [exact X|]. split; [exact Y|]. rewrite (p_C47_nothing_else _ _ _ E _ X Y). reflexivity.
Qed.
(** Three sizes: the smallest and largest are found. *)
Example x_C47_sizes : exists f, get_parameters "chute" (sized_input [2; 1; 3]) = Ok f /\ iG (sized_input [2; 1; 3]) "s_m" = None /\ iG (sized_input [2; 1; 3]) "s_M" = None /\
  fG f "s" = Some (VList [2; 1; 3]) /\ fG f "s_m" = Some (VNum 1) /\ fG f "s_M" = Some (VNum 3).
Proof.
  assert (X : exists f, get_parameters "chute" (sized_input [2; 1; 3]) = Ok f).
  { unfold get_parameters. cbn. unR. unfold Reqb. destruct (Req_EM_T 2 0); [lra|]. eexists. reflexivity. }
  destruct X as [f E]. exists f. split; [exact E|]. split; [reflexivity|]. split; [reflexivity|].
  destruct (p_C47_kept _ _ _ E) as (_ & _ & B & _). assert (S1 : fG f "s" = Some (VList [2; 1; 3])) by (apply B; reflexivity). split; [exact S1|].
  destruct (p_C47_sizes _ _ _ _ E S1) as [A C]. destruct (A eq_refl) as (m & -> & M1 & M2). destruct (C eq_refl) as (M & -> & N1 & N2).
  assert (U := M2 1 ltac:(cbn; auto)). assert (V := N2 3 ltac:(cbn; auto)).
  assert (m = 1) as -> by (destruct M1 as [<-|[<-|[<-|[]]]]; lra). assert (M = 3) as -> by (destruct N1 as [<-|[<-|[<-|[]]]]; lra). auto.
Qed.
(** A run of 3 in steps of 2 takes one step. *)
Example x_C47_nt : exists f, get_parameters "chute" plain_input = Ok f /\ iP plain_input "nt" = None /\ fP f "nt" = Some (VInt 1).
Proof.
  destruct plain_input_ok as [f E]. exists f. split; [exact E|]. split; [reflexivity|].
  destruct (p_C47_nt _ _ _ E eq_refl) as (v & w & x & y & A & B & C & D & _ & F). rewrite F. injection A as <-. injection B as <-. injection C as <-. injection D as <-.
  assert (K : Rtrunc (3 / IZR 2) = 1%Z).
  { unfold Rtrunc. destruct (Rle_dec 0 (3 / IZR 2)); [|lra]. apply Rfloor_spec. lra. }
  cbn in K |- *. rewrite K. reflexivity.
Qed.
Example x_C47_save_dir : exists f, get_parameters "chute" plain_input = Ok f /\ iP plain_input "supername" = None /\ fP f "save_dir" = Some (VStr "im/chute/elastic/").
Proof.
  destruct plain_input_ok as [f E]. exists f. split; [exact E|]. split; [reflexivity|].
  destruct (p_C47_save_dir _ _ _ E) as [_ A]. destruct (A eq_refl) as (o & os & l & B & C & D). cbn in B. injection B as <- _. cbn in C. injection C as <-. exact D.
Qed.
(** Two drawings of the grading separated by a drawing that counts, and two that are not. *)
Example x_C46_exact : exists fss fss',
  outputs_of (mkOut [false; true] 2) [DrawGsdGrid; DrawContinuum; DrawGsdGrid] (mkCounters 0 9 0 0 0 0) = Ok fss /\ NoDup (List.concat fss) /\
  outputs_of (mkOut [false; true] 2) [DrawGsdGrid; DrawGsdGrid] (mkCounters 0 9 0 0 0 0) = Ok fss' /\ ~ NoDup (List.concat fss').
Proof.
  eexists _, _. split; [reflexivity|]. split; [cbn; repeat constructor; cbn; intuition discriminate|]. split; [reflexivity|].
  cbn. intros H. inversion H as [|? ? X _]. apply X. cbn. intuition.
Qed.
