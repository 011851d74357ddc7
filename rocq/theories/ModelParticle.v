(** * Model of particle.py (class Particle). *)
From Coq Require Import ZArith List Bool Arith String.
From Verif Require Import State ModelGrid ModelConstit.
Import ListNotations.

Section Particle.
  Context {T : Type} `{Num T}.
  Local Open Scope num_scope.

  (** The current velocity: read through the shared array if there is one. *)
  Definition vel (sv : V3 T) (p : particle T) : V3 T :=
    match pv p with Own v => v | Shared => sv end.

  (** particle.py:17 and 331: body force per unit mass. *)
  Definition body (l : loads T) : V3 T :=
    mkV3 (ld_g l * nsin (ld_theta l)) (ld_g l * ncos (ld_theta l)) n0.

  (** The linear elastic stress used for the initial states, particle.py:37-38,
      41-42. *)
  Definition init_stress (K Gs : T) (e : M3 T) : M3 T :=
    madd (mscale (K * trace e) eye)
         (mscale (n2 * Gs) (msub e (mdivs (mscale (trace e) eye) n3))).

  (** The strain matching a stress, particle.py:34, 48. *)
  Definition init_strain (K Gs : T) (s : M3 T) : M3 T :=
    madd (mdivs (mmuls eye (trace s)) (nofZ 9 * K))
         (mdivs (msub s (mdivs (mmuls eye (trace s)) n3)) (n2 * Gs)).

  (** particle.py:18-51: initial stress and strain. *)
  Definition init_state (P : params T) (S : solid T) (y : T) : res (M3 T * M3 T) :=
    match p_pressure P with
    | PLithostatic =>
        let depth := match top_gap (pG P) with
                     | Some g => y_M (pG P) - g - y
                     | None => y_M (pG P) - y end in
        let th := ld_theta (p_loads P) in
        let syy := ncos th * s_rho S * p_max_g P * depth in                     (* 22, 28 *)
        let sxy := nsin th * s_rho S * p_max_g P * depth in                     (* 23, 29 *)
        let sxx := n1 * syy in                                                  (* 24, 30 *)
        let s := mkM3 sxx sxy n0 sxy syy n0 n0 n0 sxx in                        (* 32 *)
        K <- attr (s_K S) ;; Gs <- attr (s_G S) ;;
        Ok (s, init_strain K Gs s)                                              (* 34 *)
    | PNonZero =>
        let e := mscale (- lit 1 (10 ^ 15)) mones in                            (* 36 *)
        K <- attr (s_K S) ;; Gs <- attr (s_G S) ;;
        Ok (init_stress K Gs e, e)                                              (* 37-38 *)
    | PTemperature =>
        let e := mscale (- lit 1 100000) eye in                                 (* 40 *)
        K <- attr (s_K S) ;; Gs <- attr (s_G S) ;;
        Ok (init_stress K Gs e, e)                                              (* 41-42 *)
    | PCompression =>
        p0 <- attr (p_init_press P) ;;
        let s := mkM3 (- p0) n0 n0 n0 (- p0) n0 n0 n0 (- p0) in                 (* 44-46 *)
        K <- attr (s_K S) ;; Gs <- attr (s_G S) ;;
        Ok (s, init_strain K Gs s)                                              (* 48 *)
    | PNone => Ok (m0, m0)                                                      (* 50-51 *)
    end.

  (** particle.py:73-96: initial velocity, shear rate and kinetic pressure of
      the steady flows.  [None] means that the velocity is left alone.  The two
      warnings printed at 98-101 are left out. *)
  Definition init_flow (P : params T) (S0 S : solid T) (y pressure : T)
    : res (option (V3 T) * T * T) :=
    let th := ld_theta (p_loads P) in
    let yM := y_M (pG P) in
    match p_flow P with
    | FNone => Ok (None, n0, n0)
    | FSteady =>
        let visc :=
          mu_s <- attr (s_mu_s S) ;;
          Ok (Some (mkV3 (s_rho S * p_max_g P * nsin th * (yM * y - nsq y / n2) / mu_s) n0 n0),
              n0, n0) in                                                        (* 75 *)
        let poul :=
          sb <- attr (s_bar_0 (pG P)) ;;
          I0 <- attr (s_I_0 S) ;; I0 <- sc_scalar I0 ;;
          mu0 <- attr (s_mu_0 S) ;; mu0 <- sc_scalar mu0 ;;
          mu1 <- attr (s_mu_1 S) ;; pk <- attr (s_packing S) ;;
          let A := nsqrt (nabs (p_max_g P) * sb) * (n2 / n3) * I0 *
                   (ntan (nabs th) - mu0) / (mu1 - ntan (nabs th)) *
                   nsqrt (pk * ncos (nabs th)) in                               (* 77 *)
          let e := lit 3 2 in
          let v := A * (npow yM e - npow (yM - y) e) / npow sb e in             (* 78 *)
          let gd := e * A * nsqrt (yM - y) / npow sb e in                       (* 79 *)
          l <- attr (p_l P) ;;
          let k := nan0 (l * sb * nsqrt (nabs (pressure * s_rho S)) * nabs gd) in (* 80 *)
          Ok (Some (mkV3 v n0 n0), gd, k) in
        match s_law S0 with
        | Viscous => visc
        | Pouliquen => poul
        | UnknownLaw n =>
            if String.eqb n "viscous_size" then visc
            else if String.eqb n "pouliquen2D" then poul
            else Ok (None, n0, n0)
        | _ => Ok (None, n0, n0)
        end
    | FPoiseulle =>
        let Hh := yM - y_m (pG P) in                                            (* 83 *)
        let ys := y / Hh in                                                     (* 84 *)
        let ys := if nhalf <? ys then nhalf - nabs (ys - nhalf) else ys in      (* 85 *)
        let K := nabs (s_rho S0 * p_max_g P) in                                 (* 86 *)
        sb <- attr (s_bar_0 (pG P)) ;; p0 <- attr (p_init_press P) ;;
        let Lam := Hh / sb in                                                   (* 87 *)
        let beta := nsqrt (nabs (K * Hh / p0)) in                               (* 88 *)
        mu0 <- attr (s_mu_0 S) ;; mu0 <- sc_scalar mu0 ;;
        mu1 <- attr (s_mu_1 S) ;; I0 <- attr (s_I_0 S) ;; I0 <- sc_scalar I0 ;;
        rs <- attr (s_rho_s S) ;;
        let b2 := beta * beta in
        let yc := nhalf - mu0 / b2 in                                           (* 89 *)
        let u := if ys <? yc then
            Lam * I0 / (beta * beta * beta) *
              (b2 * ys + (mu0 - mu1) *
                 nlog (- (n2 * b2 * ys + n2 * mu1 - b2) / (b2 - n2 * mu1)))     (* 91-92 *)
          else
            Lam * I0 / (beta * beta * beta) *
              (b2 / n2 - mu0 + (mu0 - mu1) * nlog ((mu1 - mu0) / (mu1 - b2 / n2))) in (* 94-95 *)
        Ok (Some (mkV3 (- u * nsqrt (K * Hh / rs)) n0 n0), n0, n0)              (* 96 *)
    end.

  (** particle.py:8-96, __init__.  [self.L], [de_kk], [dev_dstress], [I],
      [eta] are not set by the constructor; they are never read before a law
      sets them and start at zero here.  [mu] is unset. *)
  Definition particle_init (P : params T) (S0 S : solid T) (x y : T) (phi : list T)
    : res (particle T) :=
    let V := s_A S * thickness (pG P) in                                        (* 15 *)
    '(s, e) <- init_state P S y ;;
    let skk := trace s in                                                       (* 55 *)
    let pr := skk / n3 in                                                       (* 58 *)
    '(vo, gd, pk) <- init_flow P S0 S y pr ;;
    Ok {| px := mkV3 x y n0;                                                    (* 10 *)
          pv := match vo with
                | Some v => Own v
                | None => if s_has_iv S then Shared else Own v0 end;            (* 11-14 *)
          pV := V; pm := s_rho S * V; prho := s_rho S;                          (* 9, 15-16 *)
          pb := body (p_loads P);                                               (* 17 *)
          pstress := s; pstrain := e;
          pdstrain := m0; pdstress := m0; pL := m0;                             (* 52-53 *)
          pde_ij := m0; pde_kk := n0; psigma_kk := skk;                         (* 54-55 *)
          pdev := msub s (mdivs (mscale skk eye) n3);                           (* 56 *)
          pdev_d := m0;
          pgammadot := gd; ppressure := pr; ppk := pk;                          (* 57-59 *)
          psigmav := yy s; psigmah := xx s; pyield := n0;                       (* 61-63 *)
          pN := repeat n0 4; pGr := repeat v0 4; pnstar := 0%Z;                 (* 64-66 *)
          pphi := phi;                                                          (* 68-71 *)
          pI := n0; pmu := None; peta := n0; peta_lim := n0 |}.

  (** [v = G.q[n]/G.m[n]] if [G.m[n] > P.M_tol] else zero (particle.py:137-140). *)
  Definition nodal_velocity (P : params T) (G : grid T) (n : Z) : res (V3 T) :=
    m <- py_get (gm G) n ;;
    if p_Mtol P <? m then q <- py_get (gq G) n ;; Ok (vdivs q m)
    else Ok v0.

  (** particle.py:126-146, update_strain.  Line 134 binds [self.L] and
      [self.L_T] to the same array, so lines 143-144 add both [L] and [L_T] to
      it: [pL] accumulates both. *)
  Definition update_strain (P : params T) (G : grid T) (p : particle T) : res (particle T) :=
    '(d, Lb) <- four P (pnstar p)
       (fun dl r n =>
          v <- nodal_velocity P G n ;;
          let L := outer v (Gr p r) in                                          (* 141 *)
          let L_T := outer (Gr p r) v in                                        (* 142 *)
          Ok (madd (fst dl) (mmuls (mscale nhalf (madd L L_T)) (p_dt P)),       (* 145 *)
              madd (madd (snd dl) L) L_T))                                      (* 143-144 *)
       (m0, m0) ;;
    Ok (p <| pdstrain := d |> <| pL := Lb |> <| pstrain := madd (pstrain p) d |>).  (* 146 *)

  (** particle.py:148-158, update_stress. *)
  Definition update_stress (P : params T) (S0 S : solid T) (ip : nat) (p : particle T) (G : grid T)
    : res (particle T * grid T) :=
    '(p, G) <- apply_law P S0 S ip p G ;;                                       (* 156 *)
    let rate := mmuls (madd (mm (pL p) (pstress p)) (mm (pstress p) (pL p))) (p_dt P) in
    Ok (p <| pstress := madd (pstress p) (msub (pdstress p) rate) |>, G).       (* 158 *)

  (** particle.py:160-173, get_reference_node: a [ValueError] (NaN) is caught
      and leaves the node unchanged. *)
  Definition get_reference_node (P : params T) (G : grid T) (p : particle T) : res (particle T) :=
    let t := ntrunc ((vx (px p) - x_m (pG P)) / gdx G) +
             ntrunc ((vy (px p) - y_m (pG P)) / gdy G) * nofZ (Z.of_nat (nx (pG P))) in
    match nint t with
    | Ok z => Ok (p <| pnstar := z |>)
    | Err ValueError => Ok p
    | Err e => Err e
    end.

  (** particle.py:176-184, get_basis_functions. *)
  Definition get_basis_functions (G : grid T) (p : particle T) : res (particle T) :=
    X <- py_get (gX G) (pnstar p) ;;
    Y <- py_get (gY G) (pnstar p) ;;
    let '(N, g) := shape (gdx G) (gdy G) (vsub (px p) (mkV3 X Y n0)) in
    Ok (p <| pN := N |> <| pGr := g |>).

  (** Broadcasting a size vector onto a row of the (nodes,ns) array; different
      lengths raise ValueError (length-1 broadcasting is left out). *)
  Definition row_add (a b : list T) : res (list T) :=
    if Nat.eqb (List.length a) (List.length b) then Ok (zipw nadd a b) else Err ValueError.

  (** particle.py:186-200, get_nodal_mass_momentum. *)
  Definition p2g (P : params T) (sv : V3 T) (p : particle T) (G : grid T) : res (grid T) :=
    four P (pnstar p)
      (fun G r n =>
         m <- py_upd (gm G) n (fun a => a + Nr p r * pm p) ;;                   (* 196 *)
         q <- py_upd (gq G) n (fun a => vadd a (vscale (Nr p r * pm p) (vel sv p))) ;; (* 197 *)
         let G := G <| gm := m |> <| gq := q |> in
         if p_seg P then
           row <- py_get (g_phim G) n ;;
           row <- row_add row (map (fun f => Nr p r * pm p * f) (pphi p)) ;;
           ph <- py_upd (g_phim G) n (fun _ => row) ;;                          (* 199 *)
           pk <- py_upd (g_pkm G) n (fun a => a + Nr p r * pm p * ppk p) ;;     (* 200 *)
           Ok (G <| g_phim := ph |> <| g_pkm := pk |>)
         else Ok G) G.

  (** particle.py:247-258, map_phi_to_mp. *)
  Definition map_phi_to_mp (P : params T) (G : grid T) (p : particle T) : res (particle T) :=
    four P (pnstar p)
      (fun p r n =>
         m <- py_get (gm G) n ;;
         if p_Mtol P <? m then
           d <- py_get (g_dphi G) n ;;
           f <- row_add (pphi p) (map (fun a => Nr p r * a) d) ;;               (* 257 *)
           k <- py_get (g_dpk G) n ;;
           Ok (p <| pphi := f |> <| ppk := ppk p + Nr p r * k |>)               (* 258 *)
         else Ok p) p.

  (** particle.py:260-279, move_material_points.  [self.v += ...] updates the
      array in place, so a shared velocity changes for every particle. *)
  Definition move_material_point (P : params T) (G : grid T) (p : particle T) (sv : V3 T)
    : res (particle T * V3 T) :=
    '(p, sv) <- four P (pnstar p)
      (fun ps r n =>
         let '(p, sv) := ps in
         m <- py_get (gm G) n ;;
         if p_Mtol P <? m then
           q <- py_get (gq G) n ;;
           qd <- py_get (gqd G) n ;;
           let p := p <| px := vadd (px p) (vdivs (vscale (p_dt P * Nr p r) q) m) |> in  (* 271 *)
           let dv := vdivs (vscale (p_dt P * Nr p r) qd) m in                            (* 272 *)
           Ok (match pv p with
               | Own v => (p <| pv := Own (vadd v dv) |>, sv)
               | Shared => (p, vadd sv dv)
               end)
         else Ok (p, sv)) (p, sv) ;;
    rho <- four P (pnstar p)
      (fun rho r n =>
         m <- py_get (gm G) n ;;
         if p_Mtol P <? m then V <- py_get (gV G) n ;; Ok (rho + Nr p r * m / V)  (* 279 *)
         else Ok rho) n0 ;;
    Ok (p <| prho := rho |>, sv).

  (** particle.py:281-290, move_rigid_points.  The array [P.intruder_v] is
      shared by the rigid points but is never updated in place. *)
  Definition move_rigid_point (P : params T) (p : particle T) : res (particle T) :=
    w <- attr (p_intruder_v P) ;;
    Ok (p <| px := vadd (px p) (vscale (p_dt P) w) |> <| pv := Own w |>).

  (** particle.py:292-306, recover_position (the list of nodes is left out). *)
  Definition recover_position (P : params T) (G : grid T) (p : particle T) : res (V3 T) :=
    four P (pnstar p)
      (fun x r n =>
         X <- py_get (gX G) n ;; Y <- py_get (gY G) n ;;
         Ok (vadd x (vscale (Nr p r) (mkV3 X Y n0)))) v0.

  (** particle.py:308-320, get_nodal_forces. *)
  Definition nodal_forces (P : params T) (p : particle T) (G : grid T) : res (grid T) :=
    four P (pnstar p)
      (fun G r n =>
         fi <- py_upd (gfi G) n (fun a => vadd a (vscale (pV p) (mv (pstress p) (Gr p r)))) ;;  (* 318 *)
         fe <- py_upd (gfe G) n (fun a => vadd a (vscale (Nr p r * pm p) (pb p))) ;;            (* 319 *)
         Ok (G <| gfi := fi |> <| gfe := fe |>)) G.

  (** particle.py:322-331, increment_gravity: only for phase 0. *)
  Definition increment_gravity (P : params T) (ip : nat) (p : particle T) : particle T :=
    if Nat.eqb ip 0 then p <| pb := body (p_loads P) |> else p.

  (** particle.py:333-345, energy: kinetic, gravitational, elastic. *)
  Definition energy (P : params T) (sv : V3 T) (p : particle T) : T * T * T :=
    let v := vel sv p in
    let k := nhalf * pm p * (nsq (vx v) + nsq (vy v) + nsq (vz v)) in           (* 341 *)
    let x := px p in
    let h := npow (nsq (vx x) + nsq (vy x) + nsq (vz x)) nhalf *
             nsin (ld_theta (p_loads P) + natan (nabs (vy x / vx x))) in        (* 342 *)
    let g := - pm p * ld_g (p_loads P) * h in                                   (* 343 *)
    let s := nhalf * msum (mmulE (pstress p) (pstrain p)) * pV p in             (* 344 *)
    (k, g, s).
End Particle.
