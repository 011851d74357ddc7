(** * Model of integrators.py: limiters, KT advection, diffusion.

    The arrays of shape (n,lines,classes) are modelled line by line and class
    by class: a line is a function of the position along the axis. *)
From Coq Require Import ZArith List Bool Arith.
From Verif Require Import State ModelGrid.
Import ListNotations.

Section Limiters.
  Context {T : Type} `{Num T}.
  Local Open Scope num_scope.

  (** integrators.py:19-30 *)
  Definition div0 (a b : T) : T := let c := a / b in if nfin c then c else n0.
  (** integrators.py:32-40 *)
  Definition minmod (a b : T) : T := nhalf * (nsign a + nsign b) * nmin (nabs a) (nabs b).
  (** integrators.py:42-50 *)
  Definition maxmod (a b : T) : T := nhalf * (nsign a + nsign b) * nmax (nabs a) (nabs b).
  (** integrators.py:52-60 *)
  Definition superbee (a b : T) : T := maxmod (minmod a (n2 * b)) (minmod (n2 * a) b).
  (** integrators.py:62-71 *)
  Definition limiter (a b : T) : T := superbee a b.
End Limiters.

Section KT.
  Context {T : Type} `{Num T}.
  Local Open Scope num_scope.

  (** [vstack([u[0],u[0],u,u[-1],u[-1]])] along the axis (integrators.py:162-174):
      position [i] of the padded line of length [n+4]. *)
  Definition pad2 {A} (n : nat) (f : nat -> A) (i : nat) : A := f (Nat.min (i - 2) (n - 1)).

  (** Padding of [g] on a cyclic domain (integrators.py:216-218): two rounds of
      [g = hstack([g[-ny:], g, g[:ny]])] give [g_0, g_{n-1}, g, g_0, g_{n-1}]. *)
  Definition pad2_cyc {A} (n : nat) (f : nat -> A) (i : nat) : A :=
    if Nat.eqb i 0 then f 0%nat
    else if Nat.eqb i 1 then f (n - 1)%nat
    else if Nat.eqb i (n + 2) then f 0%nat
    else if Nat.eqb i (n + 3) then f (n - 1)%nat
    else f (i - 2)%nat.

  (** [roll(f,1)] and [roll(f,-1)] on a line of length [N]. *)
  Definition rollp (N : nat) (f : nat -> T) (i : nat) : T := f ((i + N - 1) mod N)%nat.
  Definition rollm (N : nat) (f : nat -> T) (i : nat) : T := f ((i + 1) mod N)%nat.

  (** integrators.py:152-157, BC: no flux at the ends; [N = n+4] positions. *)
  Definition bc (n : nat) (c v : nat -> T) (i : nat) : T :=
    let v1 := - div0 (c 2%nat * v 2%nat) (c 1%nat) in                           (* 153 *)
    let v0 := - div0 (c 1%nat * v1) (c 0%nat) in                                (* 154 *)
    let w2 := - div0 (c (n + 1)%nat * v (n + 1)%nat) (c (n + 2)%nat) in         (* 155 *)
    let w1 := - div0 (c (n + 2)%nat * w2) (c (n + 3)%nat) in                    (* 156 *)
    if Nat.eqb i 0 then v0 else if Nat.eqb i 1 then v1
    else if Nat.eqb i (n + 2) then w2 else if Nat.eqb i (n + 3) then w1
    else v i.

  (** integrators.py:205, the sum over classes [sum(phi*(1./S),axis=2)]. *)
  Definition inv_size (ss phi : list T) : T := lsum (zipw (fun f s => f * (n1 / s)) phi ss).

  (** integrators.py:247-249, KT_flux: speed of the class of size [s]. *)
  Definition seg_speed (c : T) (ss phi : list T) (s g : T) (blocked : bool) : T :=
    if blocked then n0 else c * (n1 / (inv_size ss phi * s) - n1) * g.

  (** integrators.py:181-191, the scheme on one padded line [C] with speeds [V]. *)
  Definition kt_update (dt dx : T) (N : nat) (C V : nat -> T) (i : nat) : T :=
    let cx := fun i => limiter ((C i - rollp N C i) / dx) ((rollm N C i - C i) / dx) in    (* 182 *)
    let cpr := rollp N C i - rollp N cx i * dx / n2 in                                     (* 183 *)
    let cpl := C i + cx i * dx / n2 in                                                     (* 184 *)
    let cmr := C i - cx i * dx / n2 in                                                     (* 185 *)
    let cml := rollm N C i + rollm N cx i * dx / n2 in                                     (* 186 *)
    let vp := (V i + rollp N V i) / n2 in                                                  (* 187 *)
    let vm := (V i + rollm N V i) / n2 in                                                  (* 188 *)
    let ap := nmax (nabs (V i)) (nabs (rollp N V i)) in                                    (* 189 *)
    let am := nmax (nabs (V i)) (nabs (rollm N V i)) in                                    (* 190 *)
    dt * (vp * (cpr + cpl) - vm * (cmr + cml) + ap * (cpr - cpl) - am * (cmr - cml)) / (n2 * dx). (* 191 *)

  (** KT on one line of [n] nodes: fractions [phi], gradient [g], blocked nodes
      [b]; class number [k]; the result at position [i < n]. *)
  Definition kt_line (cyclic : bool) (dt dx c : T) (ss : list T) (n : nat)
             (phi : nat -> list T) (g : nat -> T) (b : nat -> bool) (k i : nat) : T :=
    let s := nth k ss n0 in
    let C := fun i => nth k (pad2 n phi i) n0 in
    let g' := fun i => if cyclic then pad2_cyc n g i else pad2 n g i in
    let V := fun i => seg_speed c ss (pad2 n phi i) s (g' i) (pad2 n b i) in
    kt_update dt dx (n + 4) C (bc n C V) (i + 2).                                          (* 193-194: gc[2:-2] *)

  (** Blocked nodes (integrators.py:201-202): boundary or lighter than [M_tol]. *)
  Definition blocked (P : params T) (G : grid T) (k : nat) : bool :=
    at0 false (btot G) k || (at0 n0 (gm G) k <? p_Mtol P).

  (** The sizes [P.G.s[i] for i in range(P.G.ns)]. *)
  Definition sizes (P : params T) : res (list T) :=
    if Nat.leb (ns (pG P)) (length (gs (pG P))) then Ok (firstn (ns (pG P)) (gs (pG P)))
    else Err IndexError.

  (** integrators.py:176-194, KT, along x ([ax=0]) and y ([ax=1]).  An empty
      axis cannot occur ([nx], [ny] are at least 2 for a constructed grid). *)
  Definition KT0 (P : params T) (G : grid T) : res (list (list T)) :=
    let nx := nx (pG P) in
    dx <- attr (pdx (pG P)) ;; ss <- sizes P ;; c <- attr (p_c P) ;;
    Ok (map (fun m => let j := (m / nx)%nat in
              map (fun k => kt_line (cyclic_lr (pB P)) (p_dt P) dx c ss nx
                              (fun i => at0 [] (g_phi G) (j * nx + i))
                              (fun i => vx (at0 v0 (g_gradpk G) (j * nx + i)))
                              (fun i => blocked P G (j * nx + i)) k (m mod nx))
                  (seq 0 (ns (pG P))))
            (seq 0 (nodes (pG P)))).
  Definition KT1 (P : params T) (G : grid T) : res (list (list T)) :=
    let nx := nx (pG P) in
    dy <- attr (pdy (pG P)) ;; ss <- sizes P ;; c <- attr (p_c P) ;;
    Ok (map (fun m => let i := (m mod nx)%nat in
              map (fun k => kt_line false (p_dt P) dy c ss (ny (pG P))
                              (fun j => at0 [] (g_phi G) (j * nx + i))
                              (fun j => vy (at0 v0 (g_gradpk G) (j * nx + i)))
                              (fun j => blocked P G (j * nx + i)) k (m / nx))
                  (seq 0 (ns (pG P))))
            (seq 0 (nodes (pG P)))).

  (** integrators.py:263-278, Diffusion; class [k] at node [m]. *)
  Definition diffusivity (l rho_s : T) (G : grid T) (m : nat) : T :=
    l * npow (at0 n0 (g_sbar G) m) (lit 3 2) * nsqrt (nabs (at0 n0 (f_gammadot G) m)) *
    nsqrt (nabs (at0 n0 (f_pressure G) m / at0 n0 (gm G) m)) / nsqrt rho_s.               (* 265 *)

  Definition Diffusion (P : params T) (rho_s : T) (G : grid T) : res (list (list T)) :=
    let nx := nx (pG P) in
    let ny := ny (pG P) in
    let N := nodes (pG P) in
    l <- attr (p_l P) ;; dy <- attr (pdy (pG P)) ;; dx <- attr (pdx (pG P)) ;;
    if (Nat.ltb nx 2 || Nat.ltb ny 2)%bool then Err ValueError else
    Ok (map (fun m =>
          map (fun k =>
            let Dp := map (fun m => diffusivity l rho_s G m * nth k (at0 [] (g_phi G) m) n0) (seq 0 N) in
            let open := fun m => nofb (negb (at0 false (btot G) m)) in
            let fy := map (fun m => grady nx ny Dp dy m * open m) (seq 0 N) in            (* 270, 274 *)
            let fx := map (fun m => gradx nx Dp dx m * open m) (seq 0 N) in               (* 270, 275 *)
            p_dt P * (gradx nx fx dx m + grady nx ny fy dy m))                            (* 276-278 *)
            (seq 0 (ns (pG P)))) (seq 0 N)).

  Definition add_rows (a b : list (list T)) : list (list T) := zipw (zipw nadd) a b.

  (** integrators.py:280-283, increment_grainsize, and grid.py:364-374. *)
  Definition calculate_phi_increment (P : params T) (rho_s : T) (G : grid T) : res (grid T) :=
    a <- KT0 P G ;; b <- KT1 P G ;; d <- Diffusion P rho_s G ;;
    Ok (G <| g_dphi := map (map nan0) (add_rows (add_rows a b) d) |>).
End KT.
