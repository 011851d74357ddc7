(** * Arithmetic interface of the model.

    The solver is transcribed once over a class [Num T] of operations.  The
    class has no laws: instances are [R] (NumR.v), extended numbers [X T]
    (NumX.v), [Q] (NumQ.v) and binary64 floats (NumF.v).

    Python exceptions are values of type [exn]. *)
From Coq Require Import ZArith List String.
Import ListNotations.

(** Exceptions raised by the Python code (builtin exception classes). *)
Inductive exn :=
| IndexError | ValueError | AttributeError | ZeroDivisionError
| TypeError | NameError | OverflowError | SystemExit.

Inductive res (A : Type) := Ok (a : A) | Err (e : exn).
Arguments Ok {A} a.
Arguments Err {A} e.

Definition bind {A B} (x : res A) (f : A -> res B) : res B :=
  match x with Ok a => f a | Err e => Err e end.

Notation "x <- e ;; f" := (bind e (fun x => f))
  (at level 100, e at next level, right associativity).
Notation "' p <- e ;; f" := (bind e (fun p => f))
  (at level 100, p pattern, e at next level, right associativity).

(** [getattr] on an attribute that may be missing. *)
Definition attr {A} (o : option A) : res A :=
  match o with Some a => Ok a | None => Err AttributeError end.

Class Num (T : Type) := {
  n0 : T; n1 : T;
  nadd : T -> T -> T; nsub : T -> T -> T; nmul : T -> T -> T; ndiv : T -> T -> T;
  nopp : T -> T; nabs : T -> T; nsqrt : T -> T; nsign : T -> T;
  nmin : T -> T -> T; nmax : T -> T -> T;      (* numpy.minimum / maximum *)
  nltb : T -> T -> bool; nleb : T -> T -> bool; neqb : T -> T -> bool;
  nofZ : Z -> T;
  ntrunc : T -> T;                             (* numpy.trunc *)
  nint : T -> res Z;                           (* int(x) *)
  npow : T -> T -> T;                          (* x ** y *)
  nsin : T -> T; ncos : T -> T; ntan : T -> T; natan : T -> T; nlog : T -> T;
  nan0 : T -> T;                               (* numpy.nan_to_num *)
  nfin : T -> bool;                            (* numpy.isfinite *)
  nmod : T -> T -> res T                       (* Python float % *)
}.

Declare Scope num_scope.
Delimit Scope num_scope with num.
Infix "+" := nadd : num_scope.
Infix "-" := nsub : num_scope.
Infix "*" := nmul : num_scope.
Infix "/" := ndiv : num_scope.
Notation "- x" := (nopp x) : num_scope.
Infix "<?" := nltb : num_scope.
Infix "<=?" := nleb : num_scope.
Infix "=?" := neqb : num_scope.

Section Lits.
  Context {T : Type} `{Num T}.
  Local Open Scope num_scope.
  (** A decimal literal [a/b] of the source text. *)
  Definition lit (a b : Z) : T := nofZ a / nofZ b.
  Definition n2 : T := nofZ 2.
  Definition n3 : T := nofZ 3.
  Definition nhalf : T := lit 1 2.
  (** [float(b)] of a boolean, e.g. in [1.-boundary_v]. *)
  Definition nofb (b : bool) : T := if b then n1 else n0.
  Definition ngtb (a b : T) : bool := b <? a.
  Definition ngeb (a b : T) : bool := b <=? a.
  Definition nsq (a : T) : T := a * a.
End Lits.
Infix ">?" := ngtb : num_scope.
Infix ">=?" := ngeb : num_scope.
