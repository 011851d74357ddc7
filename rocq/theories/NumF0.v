(** * Instance: binary64 with the sine and the cosine of zero

    These are all that a domain that is not tilted needs.  Nothing else differs from [Num_F]. *)
From Coq Require Import ZArith Bool.
From Coq Require Import Floats.SpecFloat.
From Verif Require Import Num NumF.

(** [sin(0)] and [cos(0)]; other arguments give NaN, as in [Num_F]. *)
Definition Fsin0 (a : binary64) : binary64 := match a with S754_zero s => S754_zero s | _ => S754_nan end.
Definition Fcos0 (a : binary64) : binary64 := match a with S754_zero _ => Fnorm 1 0 | _ => S754_nan end.
Global Instance Num_F0 : Num binary64 := match Num_F with
  Build_Num _ a0 a1 a2 a3 a4 a5 a6 a7 a8 a9 a10 a11 a12 a13 a14 a15 a16 a17 a18 _ _ a21 a22 a23 a24 a25 a26 =>
  Build_Num _ a0 a1 a2 a3 a4 a5 a6 a7 a8 a9 a10 a11 a12 a13 a14 a15 a16 a17 a18 Fsin0 Fcos0 a21 a22 a23 a24 a25 a26 end.

