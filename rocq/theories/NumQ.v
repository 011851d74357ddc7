(** * Instance of [Num] for rational numbers, used to execute the model.

    All field operations are exact and results are reduced.  [sqrt] is exact
    on squares of rationals and rounded down otherwise; [sin], [cos], [tan],
    [arctan] and [log] are exact at the argument where their value is rational
    and are [0] elsewhere.  Witnesses use only exact cases. *)
From Coq Require Import ZArith QArith Qreduction Qround Qabs.
From Verif Require Import Num.

Definition Qltb (a b : Q) : bool := (Qnum a * Zpos (Qden b) <? Qnum b * Zpos (Qden a))%Z.
Definition Qtrunc (x : Q) : Z := Z.quot (Qnum x) (Zpos (Qden x)).
Definition Qsqrt (x : Q) : Q :=
  let x := Qred x in
  if (Qnum x <=? 0)%Z then 0%Q
  else Qred (Z.sqrt (Qnum x) # Pos.sqrt (Qden x)).
Definition Qsign (x : Q) : Q := inject_Z (Z.sgn (Qnum x)).
Definition Qpow (x y : Q) : Q :=
  let y := Qred y in
  match Qden y with
  | 1%positive => Qred (Qpower x (Qnum y))
  | 2%positive => Qred (Qpower (Qsqrt x) (Qnum y))
  | _ => 0%Q end.
Definition Qmod (x y : Q) : res Q :=
  if Qeq_bool y 0 then Err ZeroDivisionError
  else Ok (Qred (x - y * inject_Z (Qfloor (x / y)))).

Global Instance Num_Q : Num Q := {
  n0 := 0; n1 := 1;
  nadd := fun a b => Qred (a + b); nsub := fun a b => Qred (a - b);
  nmul := fun a b => Qred (a * b); ndiv := fun a b => Qred (a / b);
  nopp := Qopp; nabs := Qabs; nsqrt := Qsqrt; nsign := Qsign;
  nmin := fun a b => if Qltb b a then b else a;
  nmax := fun a b => if Qltb a b then b else a;
  nltb := Qltb; nleb := Qle_bool; neqb := Qeq_bool;
  nofZ := inject_Z;
  ntrunc := fun x => inject_Z (Qtrunc x);
  nint := fun x => Ok (Qtrunc x);
  npow := Qpow;
  nsin := fun _ => 0%Q; ncos := fun x => if Qeq_bool x 0 then 1%Q else 0%Q;
  ntan := fun _ => 0%Q; natan := fun _ => 0%Q; nlog := fun _ => 0%Q;
  nan0 := fun x => x; nfin := fun _ => true; nmod := Qmod
}.
