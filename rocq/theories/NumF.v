(** * Instance: IEEE 754 binary64, by the reference functions of the standard
    library (Coq.Floats.SpecFloat).

    These are ordinary computable functions on mantissa and exponent; no
    primitive float and no axiom is involved.  Simplification: powers and the
    transcendental functions are not defined here (they give NaN), so this
    instance serves only code that does not use them. *)
From Coq Require Import ZArith Bool.
From Coq Require Import Floats.SpecFloat.
From Verif Require Import Num.
Local Open Scope Z_scope.

Notation binary64 := spec_float.
Definition fprec := 53.
Definition femax := 1024.

Definition Fnorm (m e : Z) : spec_float := binary_normalize fprec femax m e false.

(** Magnitude and exponent of a finite number as a signed pair. *)
Definition Fval (a : spec_float) : option (Z * Z) :=
  match a with
  | S754_zero _ => Some (0, 0)
  | S754_finite s m e => Some ((if s then Z.neg m else Z.pos m), e)
  | _ => None
  end.

(** [a*2^e] without its fractional part. *)
Definition Ztrunc2 (m e : Z) : Z := if 0 <=? e then m * 2 ^ e else Z.quot m (2 ^ (- e)).

Definition Ftrunc (a : spec_float) : spec_float :=
  match Fval a with Some (m, e) => Fnorm (Ztrunc2 m e) 0 | None => a end.
Definition Fint (a : spec_float) : res Z :=
  match a with
  | S754_nan => Err ValueError
  | S754_infinity _ => Err OverflowError
  | _ => match Fval a with Some (m, e) => Ok (Ztrunc2 m e) | None => Err ValueError end
  end.

(** Python's [a % b] for floats (CPython's float_rem): the exact remainder of C's
    fmod, plus [b] (rounded) when its sign differs from that of [b]. *)
Definition Fmod (a b : spec_float) : res spec_float :=
  match Fval b with
  | None =>
      Ok (match b, Fval a with
          | S754_infinity s, Some (ma, _) =>
              if ma =? 0 then S754_zero s else if Bool.eqb (ma <? 0) s then a else b
          | _, _ => S754_nan
          end)
  | Some (mb, eb) =>
      if mb =? 0 then Err ZeroDivisionError else
      match Fval a with
      | None => Ok S754_nan
      | Some (ma, ea) =>
          let e := Z.min ea eb in
          let r := Z.rem (ma * 2 ^ (ea - e)) (mb * 2 ^ (eb - e)) in
          let f := Fnorm r e in
          Ok (if r =? 0 then S754_zero (mb <? 0)
              else if Bool.eqb (r <? 0) (mb <? 0) then f else SFadd fprec femax f b)
      end
  end.

Definition Fmaxval : spec_float := S754_finite false 9007199254740991 971.

Definition Fnan0 (a : spec_float) : spec_float :=
  match a with
  | S754_nan => S754_zero false
  | S754_infinity true => SFopp Fmaxval
  | S754_infinity false => Fmaxval
  | _ => a
  end.

Definition Fmin (a b : spec_float) : spec_float :=
  match a, b with
  | S754_nan, _ | _, S754_nan => S754_nan
  | _, _ => if SFltb b a then b else a
  end.
Definition Fmax (a b : spec_float) : spec_float :=
  match a, b with
  | S754_nan, _ | _, S754_nan => S754_nan
  | _, _ => if SFltb a b then b else a
  end.
Definition Fsign (a : spec_float) : spec_float :=
  match a with
  | S754_nan => S754_nan
  | S754_zero _ => S754_zero false
  | S754_finite s _ _ | S754_infinity s => Fnorm (if s then -1 else 1) 0
  end.
Definition Ffin (a : spec_float) : bool :=
  match a with S754_nan | S754_infinity _ => false | _ => true end.

Global Instance Num_F : Num spec_float := {
  n0 := S754_zero false; n1 := Fnorm 1 0;
  nadd := SFadd fprec femax; nsub := SFsub fprec femax;
  nmul := SFmul fprec femax; ndiv := SFdiv fprec femax;
  nopp := SFopp; nabs := SFabs; nsqrt := SFsqrt fprec femax; nsign := Fsign;
  nmin := Fmin; nmax := Fmax;
  nltb := SFltb; nleb := SFleb; neqb := SFeqb;
  nofZ := fun z => Fnorm z 0;
  ntrunc := Ftrunc;
  nint := Fint;
  npow := fun _ _ => S754_nan;
  nsin := fun _ => S754_nan; ncos := fun _ => S754_nan; ntan := fun _ => S754_nan;
  natan := fun _ => S754_nan; nlog := fun _ => S754_nan;
  nan0 := Fnan0;
  nfin := Ffin;
  nmod := Fmod
}.
