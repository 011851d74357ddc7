(** * Instance of [Num] for the real numbers.

    [x / 0] is [0] here (Coq's convention), there are no non-finite values:
    [nan0] is the identity and [nfin] is always true. *)
From Coq Require Import ZArith Reals Lra Bool.
From Verif Require Import Num.
Local Open Scope R_scope.

Definition Rltb (a b : R) : bool := if Rlt_dec a b then true else false.
Definition Rleb (a b : R) : bool := if Rle_dec a b then true else false.
Definition Reqb (a b : R) : bool := if Req_EM_T a b then true else false.

Definition Rfloor (x : R) : Z := Int_part x.
(** Truncation towards zero. *)
Definition Rtrunc (x : R) : Z :=
  if Rle_dec 0 x then Rfloor x else (- Rfloor (- x))%Z.

Definition Rsign (x : R) : R :=
  if Rlt_dec 0 x then 1 else if Rlt_dec x 0 then -1 else 0.

(** [x ** y]: real power for positive base; [0**0 = 1], [0**y = 0] otherwise;
    integer powers of negative bases. *)
Definition Rpow (x y : R) : R :=
  if Rlt_dec 0 x then Rpower x y
  else if Req_EM_T x 0 then (if Req_EM_T y 0 then 1 else 0)
  else if Req_EM_T y (IZR (Rfloor y)) then powerRZ x (Rfloor y) else 0.

(** Python's float modulo has the sign of the divisor: [x - y*floor(x/y)]. *)
Definition Rmod (x y : R) : res R :=
  if Req_EM_T y 0 then Err ZeroDivisionError
  else Ok (x - y * IZR (Rfloor (x / y))).

Global Instance Num_R : Num R := {
  n0 := 0; n1 := 1;
  nadd := Rplus; nsub := Rminus; nmul := Rmult; ndiv := Rdiv;
  nopp := Ropp; nabs := Rabs; nsqrt := sqrt; nsign := Rsign;
  nmin := Rmin; nmax := Rmax;
  nltb := Rltb; nleb := Rleb; neqb := Reqb;
  nofZ := IZR;
  ntrunc := fun x => IZR (Rtrunc x);
  nint := fun x => Ok (Rtrunc x);
  npow := Rpow;
  nsin := sin; ncos := cos; ntan := tan; natan := atan; nlog := ln;
  nan0 := fun x => x;
  nfin := fun _ => true;
  nmod := Rmod
}.
