(** * Extended numbers: finite values, [+inf], [-inf] and [NaN].

    Arithmetic follows IEEE 754 on special values as numpy does with warnings
    ignored ([seterr(all='ignore')], MPM.py:17).  Simplifications: there is one
    zero, so [a/0] is [+inf] for [a>0]; finite results never overflow. *)
From Coq Require Import ZArith Bool.
From Verif Require Import Num.

Inductive X (T : Type) := Fin (a : T) | PInf | NInf | NaN.
Arguments Fin {T} a.
Arguments PInf {T}.
Arguments NInf {T}.
Arguments NaN {T}.

Section Ext.
  Context {T : Type} `{Num T}.
  Local Open Scope num_scope.

  Definition xopp (a : X T) : X T :=
    match a with Fin x => Fin (- x) | PInf => NInf | NInf => PInf | NaN => NaN end.

  Definition xadd (a b : X T) : X T :=
    match a, b with
    | NaN, _ | _, NaN => NaN
    | Fin x, Fin y => Fin (x + y)
    | Fin _, i => i
    | i, Fin _ => i
    | PInf, PInf => PInf | NInf, NInf => NInf
    | _, _ => NaN
    end.

  Definition xsub (a b : X T) : X T :=
    match a, b with
    | Fin x, Fin y => Fin (x - y)
    | _, _ => xadd a (xopp b)
    end.

  (** Infinity with the sign of [x]; NaN when [x] is zero. *)
  Definition xinf_sign (x : T) (neg : bool) : X T :=
    if n0 <? x then (if neg then NInf else PInf)
    else if x <? n0 then (if neg then PInf else NInf) else NaN.

  Definition xmul (a b : X T) : X T :=
    match a, b with
    | NaN, _ | _, NaN => NaN
    | Fin x, Fin y => Fin (x * y)
    | Fin x, PInf | PInf, Fin x => xinf_sign x false
    | Fin x, NInf | NInf, Fin x => xinf_sign x true
    | PInf, PInf | NInf, NInf => PInf
    | _, _ => NInf
    end.

  Definition xdiv (a b : X T) : X T :=
    match a, b with
    | NaN, _ | _, NaN => NaN
    | Fin x, Fin y => if y =? n0 then xinf_sign x false else Fin (x / y)
    | Fin _, _ => Fin n0
    | PInf, Fin y => if y <? n0 then NInf else PInf
    | NInf, Fin y => if y <? n0 then PInf else NInf
    | _, _ => NaN
    end.

  Definition xabs (a : X T) : X T :=
    match a with Fin x => Fin (nabs x) | PInf | NInf => PInf | NaN => NaN end.

  Definition xsqrt (a : X T) : X T :=
    match a with
    | Fin x => if x <? n0 then NaN else Fin (nsqrt x)
    | PInf => PInf | _ => NaN end.

  Definition xsign (a : X T) : X T :=
    match a with Fin x => Fin (nsign x) | PInf => Fin n1 | NInf => Fin (- n1) | NaN => NaN end.

  Definition xltb (a b : X T) : bool :=
    match a, b with
    | Fin x, Fin y => x <? y
    | Fin _, PInf | NInf, Fin _ | NInf, PInf => true
    | _, _ => false
    end.
  Definition xleb (a b : X T) : bool :=
    match a, b with
    | Fin x, Fin y => x <=? y
    | NaN, _ | _, NaN => false
    | _, PInf | NInf, _ => true
    | _, _ => false
    end.
  Definition xeqb (a b : X T) : bool :=
    match a, b with
    | Fin x, Fin y => x =? y
    | PInf, PInf | NInf, NInf => true
    | _, _ => false
    end.

  Definition xmin (a b : X T) : X T :=
    match a, b with
    | NaN, _ | _, NaN => NaN
    | Fin x, Fin y => Fin (nmin x y)
    | NInf, _ | _, NInf => NInf
    | PInf, c | c, PInf => c
    end.
  Definition xmax (a b : X T) : X T :=
    match a, b with
    | NaN, _ | _, NaN => NaN
    | Fin x, Fin y => Fin (nmax x y)
    | PInf, _ | _, PInf => PInf
    | NInf, c | c, NInf => c
    end.

  (** Largest binary64 number, the value [nan_to_num] gives to [inf]. *)
  Definition fltmax : T := nofZ ((2 ^ 53 - 1) * 2 ^ 971)%Z.

  Definition xnan0 (a : X T) : X T :=
    match a with
    | Fin x => Fin (nan0 x) | PInf => Fin fltmax | NInf => Fin (- fltmax) | NaN => Fin n0
    end.

  Definition xfin (a : X T) : bool :=
    match a with Fin x => nfin x | _ => false end.

  Definition xint (a : X T) : res Z :=
    match a with Fin x => nint x | NaN => Err ValueError | _ => Err OverflowError end.

  Definition xtrunc (a : X T) : X T :=
    match a with Fin x => Fin (ntrunc x) | i => i end.

  (** [x ** y]; only the special cases that the code can reach are given their
      IEEE value, the others are NaN. *)
  Definition xpow (a b : X T) : X T :=
    match a, b with
    | Fin x, Fin y =>
        if x =? n0 then (if y <? n0 then PInf else Fin (npow x y))
        else if x <? n0 then
          (if y =? ntrunc y then Fin (npow x y) else NaN)
        else Fin (npow x y)
    | _, Fin y => if y =? n0 then Fin n1 else
        match a with PInf => if y <? n0 then Fin n0 else PInf | _ => NaN end
    | _, _ => NaN
    end.

  Definition xlift (f : T -> T) (a : X T) : X T :=
    match a with Fin x => Fin (f x) | _ => NaN end.

  Definition xatan (a : X T) : X T :=
    match a with Fin x => Fin (natan x) | _ => NaN end.

  Definition xlog (a : X T) : X T :=
    match a with
    | Fin x => if x =? n0 then NInf else if x <? n0 then NaN else Fin (nlog x)
    | PInf => PInf | _ => NaN end.

  Definition xmod (a b : X T) : res (X T) :=
    match a, b with
    | _, Fin y =>
        if y =? n0 then Err ZeroDivisionError
        else match a with
             | Fin x => match nmod x y with Ok z => Ok (Fin z) | Err e => Err e end
             | _ => Ok NaN end
    | Fin x, PInf => Ok (if x <? n0 then PInf else Fin x)
    | Fin x, NInf => Ok (if n0 <? x then NInf else Fin x)
    | _, _ => Ok NaN
    end.

  Global Instance Num_X : Num (X T) := {
    n0 := Fin n0; n1 := Fin n1;
    nadd := xadd; nsub := xsub; nmul := xmul; ndiv := xdiv;
    nopp := xopp; nabs := xabs; nsqrt := xsqrt; nsign := xsign;
    nmin := xmin; nmax := xmax;
    nltb := xltb; nleb := xleb; neqb := xeqb;
    nofZ := fun z => Fin (nofZ z);
    ntrunc := xtrunc; nint := xint; npow := xpow;
    nsin := xlift nsin; ncos := xlift ncos; ntan := xlift ntan; natan := xatan; nlog := xlog;
    nan0 := xnan0; nfin := xfin; nmod := xmod
  }.
End Ext.
