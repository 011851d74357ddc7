(** * Model of mplist.py (class MatPointList): loops over phases and points. *)
From Coq Require Import ZArith List Bool Arith.
From Verif Require Import State ModelGrid ModelConstit ModelParticle.
Import ListNotations.

Section MPList.
  Context {T : Type} `{Num T}.
  Local Open Scope num_scope.

  (** [for p in range(P.phases): for i in range(P.S[p].n): f(p, L.S[p][i])]. *)
  Definition points {S} (f : nat -> phase T -> particle T -> S -> res (particle T * S))
             (L : list (phase T)) (s : S) : res (list (phase T) * S) :=
    forM (fun k ph s =>
            '(pts, s) <- each (ph_n ph) (f k ph) (ph_pts ph) s ;;
            Ok (ph <| ph_pts := pts |>, s)) 0 L s.

  (** The same loop when only the points change. *)
  Definition points_ (f : nat -> phase T -> particle T -> res (particle T))
             (L : list (phase T)) : res (list (phase T)) :=
    '(L, _) <- points (fun k ph p (_ : unit) => p <- f k ph p ;; Ok (p, tt)) L tt ;; Ok L.

  (** The same loop when the points are only read. *)
  Definition points_r {S} (f : nat -> phase T -> particle T -> S -> res S)
             (L : list (phase T)) (s : S) : res S :=
    '(_, s) <- points (fun k ph p s => s <- f k ph p s ;; Ok (p, s)) L s ;; Ok s.

  (** [P.S[0]]. get_parameters reads [P.S[0].law] (initialise.py:76), so an
      empty list of phases fails before the first step. *)
  Definition sol0 (L : list (phase T)) : res (solid T) :=
    match L with ph :: _ => Ok (ph_sol ph) | [] => Err IndexError end.

  (** [del l[i]] *)
  Fixpoint del_at {A} (i : nat) (l : list A) : list A :=
    match l, i with
    | [], _ => []
    | _ :: l', O => l'
    | a :: l', S i' => a :: del_at i' l'
    end.

  (** The descending deletion loops of mplist.py:36-39 and 50-53. *)
  Definition delete_where (out : particle T -> res bool) (ph : phase T) : res (phase T) :=
    foldM (fun ph i =>
             p <- nth_res (ph_pts ph) i ;;
             b <- out p ;;
             Ok (if b : bool then ph <| ph_pts := del_at i (ph_pts ph) |> <| ph_n := (ph_n ph - 1)%nat |>
                 else ph))
          ph (rev (seq 0 (ph_n ph))).

  Definition phases_ (f : phase T -> res (phase T)) (L : list (phase T)) : res (list (phase T)) :=
    '(L, _) <- forM (fun _ ph (_ : unit) => ph <- f ph ;; Ok (ph, tt)) 0 L tt ;; Ok L.

  (** mplist.py:28-39 *)
  Definition outlet_left_f (P : params T) (L : list (phase T)) : res (list (phase T)) :=
    phases_ (delete_where (fun p => dx <- attr (pdx (pG P)) ;;
                                    Ok (vx (px p) <? x_m (pG P) + dx))) L.

  (** mplist.py:41-53 *)
  Definition outlet_bottom_f (P : params T) (L : list (phase T)) : res (list (phase T)) :=
    phases_ (delete_where (fun p => Ok (vy (px p) <? y_m (pG P)))) L.

  (** The test of mplist.py:65 and 81: [P.t%P.S[p].inlet_rate < P.dt and P.t]. *)
  Definition inlet_due (P : params T) (S : solid T) : res bool :=
    rate <- attr (s_inlet_rate S) ;;
    m <- nmod (p_t P) rate ;;
    Ok ((m <? p_dt P) && negb (p_t P =? n0)).

  Definition add_point (P : params T) (S0 : solid T) (x y : T) (ph : phase T) : res (phase T) :=
    p <- particle_init P S0 (ph_sol ph) x y (s_phi (ph_sol ph)) ;;
    Ok (ph <| ph_pts := ph_pts ph ++ [p] |> <| ph_n := (ph_n ph + 1)%nat |>).

  (** mplist.py:55-69 *)
  Definition inlet_right_f (P : params T) (L : list (phase T)) : res (list (phase T)) :=
    S0 <- sol0 L ;;
    phases_ (fun ph =>
      due <- inlet_due P (ph_sol ph) ;;
      if due : bool then
        foldM (fun ph y =>
                 gap <- attr (s_gap (ph_sol ph)) ;;
                 add_point P S0 (x_M (pG P) - fst gap) y ph)
              ph (s_yp (ph_sol ph))
      else Ok ph) L.

  (** mplist.py:71-85 *)
  Definition inlet_top_f (P : params T) (L : list (phase T)) : res (list (phase T)) :=
    S0 <- sol0 L ;;
    phases_ (fun ph =>
      due <- inlet_due P (ph_sol ph) ;;
      if due : bool then
        gap <- attr (s_gap (ph_sol ph)) ;;
        add_point P S0 ((x_M (pG P) - x_m (pG P)) / n2) (y_M (pG P) - snd gap) ph
      else Ok ph) L.

  (** mplist.py:96-99, one point. *)
  Definition wrap (P : gridp T) (p : particle T) : particle T :=
    let w := x_M P - x_m P in
    let p := if vx (px p) <? x_m P then p <| px := setx (fun a => a + w) (px p) |> else p in
    if x_M P <? vx (px p) then p <| px := setx (fun a => a - w) (px p) |> else p.

  (** mplist.py:87-99 *)
  Definition cyclic_lr_f (P : params T) (L : list (phase T)) : res (list (phase T)) :=
    points_ (fun _ _ p => Ok (wrap (pG P) p)) L.

  (** mplist.py:101-110 *)
  Definition ref_nodes (P : params T) (G : grid T) (L : list (phase T)) : res (list (phase T)) :=
    points_ (fun _ _ p => get_reference_node P G p) L.

  (** mplist.py:112-121 *)
  Definition basis_all (G : grid T) (L : list (phase T)) : res (list (phase T)) :=
    points_ (fun _ _ p => get_basis_functions G p) L.

  (** mplist.py:134-135: [G.phi[:,j] = G.phim[:,j]/G.m]. *)
  Definition node_fractions (G : grid T) : list (list T) :=
    zipw (fun row m => map (fun a => a / m) row) (g_phim G) (gm G).

  (** mplist.py:123-151, get_nodal_mass_momentum. *)
  Definition p2g_all (P : params T) (L : list (phase T)) (G : grid T) : res (grid T) :=
    '(_, G) <- forM (fun _ ph G =>
        '(_, G) <- each (ph_n ph) (fun p G => G <- p2g P (ph_sv ph) p G ;; Ok (p, G)) (ph_pts ph) G ;;
        Ok (ph, if p_seg P then G <| g_phi := node_fractions G |> else G)) 0 L G ;;     (* 130-135 *)
    let G := if p_seg P then
        let phi := map (map nan0) (g_phi G) in                                          (* 138 *)
        G <| g_phi := phi |>
          <| g_sbar := map (fun row => lsum (zipw nmul (gs (pG P)) row)) phi |>         (* 139 *)
          <| g_pk := zipw ndiv (g_pkm G) (gm G) |>                                      (* 140 *)
      else G in
    let q := mask_y (bh G) (mask_x (bv G) (gq G)) in                                    (* 147-148 *)
    let q := if roughness (pB P) then mask_y (bv G) (mask_x (bh G) q) else q in         (* 149-151 *)
    Ok (G <| gq := q |>).

  (** grid.py:232-240 for a list of scalar fields. *)
  Definition cyc_fields (P : params T) (fs : list sfield) (G : grid T) : res (grid T) :=
    foldM (fun G f => l <- cyc nadd (nx (pG P)) (sget f G) ;; Ok (sset f l G)) G fs.

  (** MPM.py:27: make_cyclic of ['m','q']. *)
  Definition cyc_mq (P : params T) (G : grid T) : res (grid T) :=
    m <- cyc nadd (nx (pG P)) (gm G) ;; q <- cyc vadd (nx (pG P)) (gq G) ;;
    Ok (G <| gm := m |> <| gq := q |>).

  (** mplist.py:176: make_cyclic of ['fi','fe']. *)
  Definition cyc_forces (P : params T) (G : grid T) : res (grid T) :=
    fi <- cyc vadd (nx (pG P)) (gfi G) ;; fe <- cyc vadd (nx (pG P)) (gfe G) ;;
    Ok (G <| gfi := fi |> <| gfe := fe |>).

  (** mplist.py:153-164, update_stress_strain. *)
  Definition stress_strain (P : params T) (L : list (phase T)) (G : grid T)
    : res (list (phase T) * grid T) :=
    S0 <- sol0 L ;;
    '(L, G) <- points (fun k ph p G =>
                 p <- update_strain P G p ;; update_stress P S0 (ph_sol ph) k p G) L G ;;  (* 160-163 *)
    if cyclic_lr (pB P) then
      G <- cyc_fields P [Fpressure; Fgammadot; Fdev; Fyield; Fmu_s; Fmu; FI] G ;;          (* 164 *)
      Ok (L, G)
    else Ok (L, G).

  (** mplist.py:166-176, get_nodal_forces. *)
  Definition forces_all (P : params T) (L : list (phase T)) (G : grid T) : res (grid T) :=
    G <- points_r (fun _ _ p G => nodal_forces P p G) L G ;;
    if cyclic_lr (pB P) then cyc_forces P G else Ok G.

  Definition is_rigid (l : law_name) : bool := match l with Rigid => true | _ => false end.

  (** mplist.py:178-191, move_material_points. *)
  Definition move_all (P : params T) (G : grid T) (L : list (phase T)) : res (list (phase T)) :=
    phases_ (fun ph =>
      if is_rigid (s_law (ph_sol ph)) then
        '(pts, _) <- each (ph_n ph) (fun p (_ : unit) => p <- move_rigid_point P p ;; Ok (p, tt))
                          (ph_pts ph) tt ;;
        Ok (ph <| ph_pts := pts |>)
      else
        '(pts, sv) <- each (ph_n ph) (move_material_point P G) (ph_pts ph) (ph_sv ph) ;;
        Ok (ph <| ph_pts := pts |> <| ph_sv := sv |>)) L.

  (** mplist.py:193-202, update_forces. *)
  Definition update_forces (P : params T) (L : list (phase T)) : res (list (phase T)) :=
    points_ (fun k _ p => Ok (increment_gravity P k p)) L.

  (** mplist.py:233-245, measure_elastic_energy. *)
  Definition measure_energy (P : params T) (L : list (phase T)) : res (T * T * T * T) :=
    '(K, G, E) <- points_r (fun _ ph p kgs =>
        let '(K, G, E) := kgs in
        let '(k, g, s) := energy P (ph_sv ph) p in
        Ok (K + k, G + g, E + s)) L (n0, n0, n0) ;;
    Ok (p_t P, K, G, E).

  (** The builtin [max] of the array iterated at mplist.py:257. *)
  Definition pymax (a b : T) : T := if a <? b then b else a.

  (** mplist.py:247-265, recover_position.  When the position is not recovered
      the message of lines 258-263 adds a string and an array, which raises
      TypeError. *)
  Definition check_positions (P : params T) (G : grid T) (L : list (phase T)) : res unit :=
    points_r (fun _ _ p (_ : unit) =>
      x <- recover_position P G p ;;
      let d := vmap nabs (vsub x (px p)) in
      if lit 1 (10 ^ 10) <? pymax (pymax (vx d) (vy d)) (vz d) then Err TypeError
      else Ok tt) L tt.

  (** mplist.py:305-307: clip to [0,1] and divide by the sum. *)
  Definition normalise (phi : list T) : list T :=
    let f := map (fun a => if a <? n0 then n0 else a) phi in
    let f := map (fun a => if n1 <? a then n1 else a) f in
    let s := lsum f in
    map (fun a => a / s) f.

  (** mplist.py:291-307, move_grainsize_on_grid. *)
  Definition move_grainsize (P : params T) (G : grid T) (L : list (phase T)) : res (list (phase T)) :=
    L <- points_ (fun _ _ p => map_phi_to_mp P G p) L ;;
    if p_norm P then points_ (fun _ _ p => Ok (p <| pphi := normalise (pphi p) |>)) L
    else Ok L.

  (** mplist.py:15-26, the constructor.  [coords] lists, per phase, the
      attributes [X[i], Y[i], PHI[i]] for [i < n]; [PHI] is [None] unless the
      phase is heterogeneous. *)
  Definition mplist_init (P : params T) (sols : list (solid T * V3 T * list (T * T * option (list T))))
    : res (list (phase T)) :=
    S0 <- (match sols with (So, _, _) :: _ => Ok So | [] => Err IndexError end) ;;
    mapM (fun c : solid T * V3 T * list (T * T * option (list T)) =>
        let '(So, sv, pts) := c in
        ps <- mapM (fun xy : T * T * option (list T) =>
            let '(x, y, phi) := xy in
            particle_init P S0 So x y (match phi with Some f => f | None => s_phi So end)) pts ;;
        Ok (mkPhase So (length pts) sv ps)) sols.

  (** mplist.py:267-288, update_timestep (not called by main since the call at
      MPM.py:98 is commented out).  The fields it uses are collected in a
      record; [yt_q] is [P.q], which initialise.py does not define. *)
  Record ytime := mkYtime { yt_yielded : bool; yt_nt : Z; yt_tstep : Z; yt_dt : T; yt_save : T;
                            yt_q : option T }.
  Definition yield_update (yf : list T) (s : ytime) : res ytime :=
    let y := (yt_yielded s || existsb (fun f => lit 99 100 <? f) yf)%bool in             (* 273-277 *)
    if y then
      _ <- attr (yt_q s) ;;                                                              (* 279-281 *)
      rem <- nint (nofZ (yt_nt s - yt_tstep s) * nofZ 20) ;;
      Ok (mkYtime true (yt_tstep s + rem) (yt_tstep s)                                   (* 284-285 *)
                  (yt_dt s / nofZ 20) (yt_save s / nofZ 20) (yt_q s))                    (* 286-287 *)
    else Ok (mkYtime y (yt_nt s) (yt_tstep s) (yt_dt s) (yt_save s) (yt_q s)).
End MPList.
