(** * Model of new_integrator.py: the stand-alone segregation solver.

    The arrays of shape (ny,nx) are modelled line by line along the axis [ax]: a
    line is a function of the position.  Padding by one in the other direction
    (new_integrator.py:99-100) only adds lines that are cut off again
    (RK4, RK3, Euler return [1:-1,1:-1]).  BC (104-135) is the identity and never called.
    Plotting and printing in main are left out. *)
From Coq Require Import ZArith List Bool Arith.
From Verif Require Import State ModelGrid ModelIntegr.
Import ListNotations.

Section NewInt.
  Context {T : Type} `{Num T}.
  Local Open Scope num_scope.

  (** new_integrator.py:5-9, limiter: minmod (line 13, the same formula as
      integrators.py:32-40). *)
  Definition nlimiter (a b : T) : T := minmod a b.

  (** new_integrator.py:14-16, vanLeer; div0 (30-41) as in integrators.py. *)
  Definition vanLeer (a b : T) : T := let r := div0 a b in (r + nabs r) / (n1 + nabs r).
  (** new_integrator.py:17-19, vanAlbada1 *)
  Definition vanAlbada1 (a b : T) : T := let r := div0 a b in (r * r + r) / (r * r + n1).
  (** new_integrator.py:20-28, minmod2, one element.  The third positional
      argument of np.minimum and np.maximum is the output array, so lines 26 and 27
      compare the first two only. *)
  Definition minmod2 (a b c theta : T) : T :=
    let r := if (n0 <? a) && (n0 <? b) && (n0 <? c) then nmin (theta * a) b else n0 in     (* 23-26 *)
    if (a <? n0) && (b <? n0) && (c <? n0) then nmax (theta * a) b else r.                 (* 27 *)

  (** new_integrator.py:65-69 *)
  Definition nvelocity (c v : T) : T := v * (n1 - n1 / (c + (n1 - c) * lit 5 2)).
  (** new_integrator.py:61-63 *)
  Definition nflux (c v : T) : T := c * nvelocity c v.

  (** new_integrator.py:71-95, KT, at position [i] of a line of length [N];
      [rollp], [rollm] are [roll(.,1)], [roll(.,-1)] (44-48). *)
  Definition nKT (dx : T) (N : nat) (c v : nat -> T) (i : nat) : T :=
    let cx := fun i => nlimiter ((c i - rollp N c i) / dx) ((rollm N c i - c i) / dx) in   (* 72 *)
    let cpl := fun i => c i - dx / n2 * cx i in                                            (* 77 *)
    let cmr := fun i => c i + dx / n2 * cx i in                                            (* 78 *)
    let cpr := rollm N cpl i in                                                            (* 79 *)
    let cml := rollp N cmr i in                                                            (* 80 *)
    let vl := rollp N v i in                                                               (* 82 *)
    let vr := rollm N v i in                                                               (* 83 *)
    let ar := nmax (nabs (nvelocity (cmr i) vr)) (nabs (nvelocity cpr vr)) in              (* 85 *)
    let al := nmax (nabs (nvelocity cml vl)) (nabs (nvelocity (cpl i) vl)) in              (* 86 *)
    - (nflux cpr vr + nflux (cmr i) vr - nflux (cpl i) vl - nflux cml vl -
       (ar * (cpr - cmr i) - al * (cpl i - cml))) / (n2 * dx).                             (* 88-94 *)

  (** new_integrator.py:97-102, pad: lines of [n] values become [n+2]. *)
  Definition pad_edge (n : nat) (c : nat -> T) (i : nat) : T := c (Nat.min (i - 1) (n - 1)).
  Definition pad_zero (n : nat) (v : nat -> T) (i : nat) : T :=
    if Nat.eqb i 0 then n0 else if Nat.eqb i (n + 1) then n0 else v (i - 1)%nat.

  (** new_integrator.py:153-156, Euler *)
  Definition nEuler (dx dt : T) (n : nat) (c v : nat -> T) (i : nat) : T :=
    dt * nKT dx (n + 2) (pad_edge n c) (pad_zero n v) (i + 1).
  (** new_integrator.py:137-144, RK4 *)
  Definition nRK4 (dx dt : T) (n : nat) (c v : nat -> T) (i : nat) : T :=
    let c := pad_edge n c in
    let v := pad_zero n v in
    let K := fun c => nKT dx (n + 2) c v in
    let k1 := K c in
    let k2 := K (fun i => c i + dt / n2 * k1 i) in
    let k3 := K (fun i => c i + dt / n2 * k2 i) in
    let k4 := K (fun i => c i + dt * k3 i) in
    dt / lit 6 1 * (k1 (i + 1)%nat + n2 * k2 (i + 1)%nat + n2 * k3 (i + 1)%nat + k4 (i + 1)%nat).
  (** new_integrator.py:146-151, RK3: returns the new concentration *)
  Definition nRK3 (dx dt : T) (n : nat) (c v : nat -> T) (i : nat) : T :=
    let c := pad_edge n c in
    let v := pad_zero n v in
    let K := fun c => nKT dx (n + 2) c v in
    let c1 := fun i => c i + dt * K c i in
    let c2 := fun i => lit 3 4 * c i + lit 1 4 * (c1 i + dt * K c1 i) in
    lit 33333 100000 * c (i + 1)%nat + lit 66667 100000 * (c2 (i + 1)%nat + dt * K c2 (i + 1)%nat).

  (** new_integrator.py:158-163, diffusion; [D*c] with a number [D] *)
  Definition ndiffusion (D dx dt : T) (n : nat) (c : nat -> T) (i : nat) : T :=
    c i + dt * grad1 (grad1 (fun i => D * c i) dx n) dx n i.

  (** new_integrator.py:165-196, main: the loop over time steps on one line. *)
  Fixpoint nrun (dx dt D : T) (n : nat) (v : nat -> T) (steps : nat) (c : nat -> T) : nat -> T :=
    match steps with
    | O => c
    | S k => nrun dx dt D n v k (ndiffusion D dx dt n (nRK3 dx dt n c v))                  (* 189-190 *)
    end.
End NewInt.
