(** * Cases that meet the hypotheses: parameters and output files
    Statements only; the proofs are in ThmCasesInit.v. *)
From Coq Require Import ZArith Reals List Bool Arith Lra Lia Ascii String.
From Verif Require Import State NumR Spec LibR ModelGrid ModelPlot ModelInit ProofsGrid ThmPlot ThmInit.
Import ListNotations.
From Verif Require Import ThmCasesInit.
Local Open Scope string_scope.
Local Open Scope R_scope.

Example C47_kept_example : exists f, get_parameters "chute" plain_input = Ok f /\ iP plain_input "t_f" = Some (VNum 3) /\ fP f "t_f" = Some (VNum 3) /\
  iG plain_input "nx" = Some (VInt 5) /\ fG f "nx" = Some (VInt 5).
Proof. exact x_C47_kept. Qed.

Example C47_nothing_else_example : exists f, get_parameters "chute" plain_input = Ok f /\ ~ In "nonsense" (map fst table_P) /\
  ~ In "nonsense" ["mode"; "phases"; "save_dir"; "nt"; "g"; "q_v"; "q_h"] /\ fP f "nonsense" = None.
Proof. exact x_C47_nothing_else. Qed.

(** Three sizes: the smallest and largest are found. *)
Example C47_sizes_example : exists f, get_parameters "chute" (sized_input [2; 1; 3]) = Ok f /\ iG (sized_input [2; 1; 3]) "s_m" = None /\ iG (sized_input [2; 1; 3]) "s_M" = None /\
  fG f "s" = Some (VList [2; 1; 3]) /\ fG f "s_m" = Some (VNum 1) /\ fG f "s_M" = Some (VNum 3).
Proof. exact x_C47_sizes. Qed.

(** A run of 3 in steps of 2 takes one step. *)
Example C47_nt_example : exists f, get_parameters "chute" plain_input = Ok f /\ iP plain_input "nt" = None /\ fP f "nt" = Some (VInt 1).
Proof. exact x_C47_nt. Qed.

Example C47_save_dir_example : exists f, get_parameters "chute" plain_input = Ok f /\ iP plain_input "supername" = None /\ fP f "save_dir" = Some (VStr "im/chute/elastic/").
Proof. exact x_C47_save_dir. Qed.

(** Two drawings of the grading separated by a drawing that counts, and two that are not. *)
Example C46_exact_example : exists fss fss',
  outputs_of (mkOut [false; true] 2) [DrawGsdGrid; DrawContinuum; DrawGsdGrid] (mkCounters 0 9 0 0 0 0) = Ok fss /\ NoDup (List.concat fss) /\
  outputs_of (mkOut [false; true] 2) [DrawGsdGrid; DrawGsdGrid] (mkCounters 0 9 0 0 0 0) = Ok fss' /\ ~ NoDup (List.concat fss').
Proof. exact x_C46_exact. Qed.
