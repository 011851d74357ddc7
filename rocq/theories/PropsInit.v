(** * Parameters and their defaults
    Statements only; the proofs are in ThmInit.v. *)
From Coq Require Import ZArith List Bool Arith Lia Ascii String Reals Lra.
From Verif Require Import State NumR LibList ModelPlot ModelInit.
Import ListNotations.
From Verif Require Import ThmInit.
Local Open Scope R_scope.
Local Open Scope string_scope.

(** What the input file sets is kept, except the name of the input file, the
    number of phases, the output directory and the energy table. *)
Theorem C47_kept : forall mode (i : input R) f, get_parameters mode i = Ok f ->
  (forall a v, iP i a = Some v -> a <> "mode" -> a <> "phases" -> a <> "save_dir" -> fP f a = Some v) /\
  (forall a v, iB i a = Some v -> fB f a = Some v) /\ (forall a v, iG i a = Some v -> fG f a = Some v) /\
  (forall a v, iO i a = Some v -> a <> "energy" -> fO f a = Some v) /\
  Forall2 (fun o o' => forall a v, o a = Some v -> o' a = Some v) (phases_of i) (fS f).
Proof. exact p_C47_kept. Qed.
Print Assumptions C47_kept.

(** Instance: C47_kept_example in PropsCasesInit.v. *)

(** What it leaves out gets the documented default. *)
Theorem C47_defaults : forall mode (i : input R) f, get_parameters mode i = Ok f ->
  (forall a v, In (a, v) table_P -> iP i a = None -> fP f a = Some v) /\
  (iP i "g" = None -> fP f "g" = fP f "max_g") /\ (iP i "q_v" = None -> fP f "q_v" = fP f "max_q") /\ (iP i "q_h" = None -> fP f "q_h" = fP f "max_q") /\
  (forall a, In a switches_B -> iB i a = None -> fB f a = Some (VBool false)) /\
  (forall a, In a switches_O -> iO i a = None -> fO f a = Some (VBool false)) /\
  (forall a, In a hooks_O -> iO i a = None -> fO f a = Some (VFun 0)) /\
  (iG i "thickness" = None -> fG f "thickness" = Some (VNum 1)) /\ (iG i "ns" = None -> fG f "ns" = Some (VInt 1)) /\
  (iG i "s" = None -> fG f "s" = Some (VList [1 / 1000])) /\
  Forall2 (fun o o' => (o "heterogeneous" = None -> o' "heterogeneous" = Some (VBool false)) /\
     (o "phi" = None -> exists n, fG f "ns" = Some (VInt (Z.of_nat n)) /\ o' "phi" = Some (VList (repeat (1 / INR n) n)))) (phases_of i) (fS f).
Proof. exact p_C47_defaults. Qed.
Print Assumptions C47_defaults.

(** The smallest and largest grain size, where the input leaves them out, are
    sizes of the list, and every size of the list is between them. *)
Theorem C47_sizes : forall mode (i : input R) f l, get_parameters mode i = Ok f -> fG f "s" = Some (VList l) ->
  (iG i "s_m" = None -> exists m, fG f "s_m" = Some (VNum m) /\ In m l /\ forall s, In s l -> m <= s) /\
  (iG i "s_M" = None -> exists m, fG f "s_M" = Some (VNum m) /\ In m l /\ forall s, In s l -> s <= m).
Proof. exact p_C47_sizes. Qed.
Print Assumptions C47_sizes.

(** Instance: C47_sizes_example in PropsCasesInit.v. *)

(** Nothing else appears: a parameter without default that the input leaves out,
    such as the time between saves, stays missing. *)
Theorem C47_nothing_else : forall mode (i : input R) f, get_parameters mode i = Ok f -> forall a,
  ~ In a (map fst table_P) -> ~ In a ["mode"; "phases"; "save_dir"; "nt"; "g"; "q_v"; "q_h"] -> fP f a = iP i a.
Proof. exact p_C47_nothing_else. Qed.
Print Assumptions C47_nothing_else.

(** Instance: C47_nothing_else_example in PropsCasesInit.v. *)

(** The number of steps and the energy table. *)
Theorem C47_nt : forall mode (i : input R) f, get_parameters mode i = Ok f -> iP i "nt" = None ->
  exists v w x y, iP i "t_f" = Some v /\ iP i "dt" = Some w /\ num_of v = Ok x /\ num_of w = Ok y /\ y <> 0 /\ fP f "nt" = Some (VInt (Rtrunc (x / y))).
Proof. exact p_C47_nt. Qed.
Print Assumptions C47_nt.

(** Instance: C47_nt_example in PropsCasesInit.v. *)

(** Results go below the name that the user gave, or below the names of the
    input file and of the law of the first phase; a directory that the input file
    sets itself is ignored. *)
Theorem C47_save_dir : forall mode (i : input R) f, get_parameters mode i = Ok f ->
  (forall s, iP i "supername" = Some (VStr s) -> fP f "save_dir" = Some (VStr (s ++ "/"))) /\
  (iP i "supername" = None -> exists o os l, phases_of i = o :: os /\ o "law" = Some (VStr l) /\ fP f "save_dir" = Some (VStr ("im/" ++ mode ++ "/" ++ l ++ "/"))).
Proof. exact p_C47_save_dir. Qed.
Print Assumptions C47_save_dir.

(** Instance: C47_save_dir_example in PropsCasesInit.v. *)

Example C47_defaults_example : exists mode (i : input R) f, get_parameters mode i = Ok f /\ iP i "max_g" = Some (VNum 10) /\ iP i "g" = None /\ fP f "g" = Some (VNum 10) /\
  iB i "box" = Some (VBool true) /\ fB f "box" = Some (VBool true) /\ fB f "wall" = Some (VBool false) /\ fP f "save_dir" = Some (VStr "im/ball/rigid/") /\ fP f "savetime" = None.
Proof. exact x_C47_defaults. Qed.
