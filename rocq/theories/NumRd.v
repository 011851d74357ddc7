(** * Instance: real numbers, rounded after every operation.

    [rd] is any rounding function, e.g. that of IEEE 754 binary64 to nearest.
    Models the float arithmetic of numpy in all of /repo (e.g. grid.py:87-92,
    215-230, particle.py:165-200): every operation gives the rounded exact
    result.  Simplification: numbers do not overflow or underflow and there
    are no special values ([x / 0] is the rounded [0] of Coq's reals); sums of
    arrays are taken in the order in which the model takes them. *)
From Coq Require Import ZArith Reals Bool.
From Verif Require Import Num NumR.
Local Open Scope R_scope.

Definition Num_rd (rd : R -> R) : Num R := {|
  n0 := 0; n1 := 1;
  nadd := fun x y => rd (x + y); nsub := fun x y => rd (x - y);
  nmul := fun x y => rd (x * y); ndiv := fun x y => rd (x / y);
  nopp := Ropp; nabs := Rabs; nsqrt := fun x => rd (sqrt x); nsign := Rsign;
  nmin := Rmin; nmax := Rmax;
  nltb := Rltb; nleb := Rleb; neqb := Reqb;
  nofZ := fun z => rd (IZR z);
  ntrunc := fun x => IZR (Rtrunc x);
  nint := fun x => Ok (Rtrunc x);
  npow := fun x y => rd (Rpow x y);
  nsin := fun x => rd (sin x); ncos := fun x => rd (cos x); ntan := fun x => rd (tan x);
  natan := fun x => rd (atan x); nlog := fun x => rd (ln x);
  nan0 := fun x => x;
  nfin := fun _ => true;
  nmod := fun x y => match Rmod x y with Ok z => Ok (rd z) | Err e => Err e end
|}.

