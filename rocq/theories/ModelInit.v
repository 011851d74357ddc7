(** * Model of initialise.py:7-97: reading the parameters.

    An object ([P], [P.B], [P.G], [P.O], each [P.S[p]]) is the finite set of its
    attributes, a partial map from names to values.  The input file is any such
    set of attributes; [exec] of the input file, [P.update_forces], the
    construction of grid and points and the installation of [update_timestep]
    (initialise.py:8-10, 99-116) are not part of this file.  [P.B], [P.G], [P.O]
    and [P.S] are assumed to exist. *)
From Coq Require Import ZArith List Bool Arith Ascii String.
From Verif Require Import State ModelPlot.
Import ListNotations.
Local Open Scope string_scope.

Section Init.
  Context {T : Type} `{Num T}.
  Local Open Scope num_scope.

  (** Attribute values.  [VFun n] is a function object, [VFun 0] the
      [blank_function] of initialise.py:92. *)
  Inductive val :=
  | VNum (x : T) | VInt (z : Z) | VBool (b : bool) | VNone | VStr (s : string)
  | VList (l : list T) | VFun (n : nat) | VZeros (rows cols : Z).

  Definition obj := string -> option val.
  Definition has (o : obj) (a : string) : bool := match o a with Some _ => true | None => false end.
  Definition setattr (o : obj) (a : string) (v : val) : obj := fun b => if String.eqb a b then Some v else o b.
  (** [o.a] raises AttributeError when missing. *)
  Definition getattr (o : obj) (a : string) : res val := attr (o a).
  (** [if not hasattr(o,'a'): o.a = e]; [e] is evaluated only when needed. *)
  Definition setdefault (a : string) (e : obj -> res val) (o : obj) : res obj :=
    if has o a then Ok o else v <- e o ;; Ok (setattr o a v).
  Definition const (v : val) : obj -> res val := fun _ => Ok v.
  Fixpoint setdefaults (l : list (string * (obj -> res val))) (o : obj) : res obj :=
    match l with [] => Ok o | (a, e) :: l => o <- setdefault a e o ;; setdefaults l o end.

  (** A number, for arithmetic on attributes ([bool] values do not occur). *)
  Definition num_of (v : val) : res T :=
    match v with VNum x => Ok x | VInt z => Ok (nofZ z) | VBool b => Ok (nofb b) | _ => Err TypeError end.
  (** initialise.py:18, [int(P.t_f/P.dt)] *)
  Definition default_nt (o : obj) : res val :=
    a <- getattr o "t_f" ;; b <- getattr o "dt" ;;
    x <- num_of a ;; y <- num_of b ;;
    if y =? n0 then Err ZeroDivisionError else n <- nint (x / y) ;; Ok (VInt n).

  (** initialise.py:13-35 *)
  Definition defaults_P : list (string * (obj -> res val)) :=
    [ ("t", const (VNum n0)); ("tstep", const (VInt 0)); ("grid_save", const (VInt 0)); ("mp_save", const (VInt 0));
      ("M_tol", const (VNum (lit 1 (10 ^ 10)))); ("nt", default_nt);
      ("max_g", const (VNum n0)); ("max_q", const (VNum n0));
      ("g", fun o => getattr o "max_g"); ("q_v", fun o => getattr o "max_q"); ("q_h", fun o => getattr o "max_q");
      ("has_yielded", const (VBool false)); ("damping", const (VBool false)); ("theta", const (VNum n0));
      ("pressure", const VNone); ("segregate_mp", const (VBool false)); ("segregate_grid", const (VBool false));
      ("initial_flow", const (VBool false)); ("smooth_gamma_dot", const (VBool false));
      ("smooth_grad2", const (VBool false)); ("normalise_phi", const (VBool false));
      ("time_stepping", const (VStr "static")); ("CFL", const (VNum (lit 1 10))) ].

  (** initialise.py:38-58 *)
  Definition defaults_B : list (string * (obj -> res val)) :=
    map (fun a => (a, const (VBool false)))
      [ "wall"; "two_walls"; "roughness"; "wall_mu"; "no_slip_bottom"; "cyclic_lr"; "has_top"; "has_bottom"; "has_right"; "has_left";
        "box"; "outlet_left"; "outlet_bottom"; "inlet_right"; "inlet_top"; "force_boundaries"; "vertical_force"; "horizontal_force";
        "conveyor"; "silo_left"; "silo_bottom" ].

  (** numpy.min and max of a list; a number is its own [numpy.min], the builtin
      [max] of a number is a TypeError. *)
  Definition min_of (v : val) : res val :=
    match v with
    | VList [] => Err ValueError | VList (a :: l) => Ok (VNum (fold_left nmin l a))
    | VNum x => Ok (VNum x) | VInt z => Ok (VInt z) | _ => Err TypeError
    end.
  Definition max_of (v : val) : res val :=
    match v with VList [] => Err ValueError | VList (a :: l) => Ok (VNum (fold_left nmax l a)) | _ => Err TypeError end.

  (** initialise.py:60-64 *)
  Definition defaults_G : list (string * (obj -> res val)) :=
    [ ("thickness", const (VNum n1)); ("ns", const (VInt 1)); ("s", const (VList [lit 1 1000]));
      ("s_m", fun o => s <- getattr o "s" ;; min_of s); ("s_M", fun o => s <- getattr o "s" ;; max_of s) ].

  (** initialise.py:69-70; [ones([ns])/float(ns)] *)
  Definition default_phi (g : obj) (_ : obj) : res val :=
    v <- getattr g "ns" ;;
    match v with
    | VInt z => if (z <? 0)%Z then Err ValueError else Ok (VList (repeat (n1 / nofZ z) (Z.to_nat z)))
    | _ => Err TypeError
    end.
  Definition defaults_S (g : obj) : list (string * (obj -> res val)) :=
    [ ("phi", default_phi g); ("heterogeneous", const (VBool false)) ].

  (** initialise.py:79-90 and 92-97 *)
  Definition defaults_O : list (string * (obj -> res val)) :=
    map (fun a => (a, const (VBool false)))
      [ "check_positions"; "measure_stiffness"; "measure_energy"; "plot_gsd_mp"; "plot_gsd_grid"; "plot_gsd_debug";
        "plot_material_points"; "plot_continuum"; "save_s_bar"; "save_density"; "save_u"; "save_phi_MP" ] ++
    map (fun a => (a, const (VFun 0)))
      [ "initial_graphs"; "before_every_timestep"; "after_every_nth_timestep"; "after_every_timestep"; "final_graphs" ].

  (** The input: attributes of [P] other than the sub-objects; [P.S] is one
      object or a list. *)
  Record input := mkInput { iP : obj; iB : obj; iG : obj; iO : obj; iS : obj + list obj }.
  Record settings := mkSettings { fP : obj; fB : obj; fG : obj; fO : obj; fS : list obj }.

  (** String concatenation: a TypeError unless a string. *)
  Definition str_of (v : val) : res string := match v with VStr s => Ok s | _ => Err TypeError end.
  (** Truth value of an attribute. *)
  Definition truthy (v : val) : bool :=
    match v with
    | VNum x => negb (x =? n0) | VInt z => negb (z =? 0)%Z | VBool b => b | VNone => false
    | VStr s => negb (String.eqb s "") | VList l => negb (Nat.eqb (List.length l) 0) | VFun _ => true | VZeros r _ => negb (r =? 0)%Z
    end.

  (** initialise.py:11-97 and 99 (the energy table); [mode] is the first command
      line argument. *)
  Definition get_parameters (mode : string) (i : input) : res settings :=
    let P := setattr (iP i) "mode" (VStr mode) in                               (* 11 *)
    P <- setdefaults defaults_P P ;;                                            (* 13-35 *)
    B <- setdefaults defaults_B (iB i) ;;                                       (* 38-58 *)
    G <- setdefaults defaults_G (iG i) ;;                                       (* 60-64 *)
    let S := match iS i with inl o => [o] | inr l => l end in                   (* 66 *)
    let P := setattr P "phases" (VInt (Z.of_nat (List.length S))) in            (* 67 *)
    S <- mapM (setdefaults (defaults_S G)) S ;;                                 (* 68-70 *)
    dir <- match P "supername" with
           | Some v => s <- str_of v ;; Ok (s ++ "/")%string                             (* 75 *)
           | None => match S with
                     | [] => Err IndexError
                     | o :: _ => l <- getattr o "law" ;; l <- str_of l ;;
                                 Ok ("im/" ++ mode ++ "/" ++ l ++ "/")%string            (* 76 *)
                     end
           end ;;
    let P := setattr P "save_dir" (VStr dir) in
    O <- setdefaults defaults_O (iO i) ;;                                       (* 79-97 *)
    e <- getattr O "measure_energy" ;;
    O <- (if truthy e then                                                      (* 99 *)
            n <- getattr P "nt" ;;
            match n with VInt n => if (n + 1 <? 0)%Z then Err ValueError else Ok (setattr O "energy" (VZeros (n + 1) 4)) | _ => Err TypeError end
          else Ok O) ;;
    Ok (mkSettings P B G O S).
End Init.
Arguments val : clear implicits. Arguments obj : clear implicits. Arguments input : clear implicits. Arguments settings : clear implicits.
