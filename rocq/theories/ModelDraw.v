(** * What the pictures of a run show: grid.py:95-97, 312-318, plotting.py:81-325, 529-563, 598-623.

    A picture is modelled by the numbers that are given to matplotlib: the marks of
    a [plot], the cell edges and the values of a [pcolormesh] or [contourf], the
    centre, the radius and the angles of a [Wedge].  Colours, scales, limits, titles
    with numbers in them and the figure files are left out (the file names are in
    [ModelPlot.output]). *)
From Coq Require Import List Bool Arith ZArith String.
From Verif Require Import State ModelGrid ModelConstit ModelParticle ModelMPList ModelSave.
Import ListNotations.
Local Open Scope num_scope.

(** The labels of the panels of plotting.py:140, 191-199 and 264 and of the nine
    panels of 275-316. *)
Inductive title := TU | TV | TSbar | TRho | TRate | TGradX | TGradY | TPress | TShear | TRatio | TMu | TEta
  | TPk | TI | TGradPk | TDphi | TYield | TSigV | TSigH | TDevDot.

(** The families of laws that plotting.py:126, 163, 259 and 272 tell apart; 'rigid'
    (plotting.py:116) has no picture. *)
Inductive family := FamRigid | FamViscous | FamFlow | FamDp | FamOther.
(** plotting.py:116, 126, 163, 259, 272: the tests on [P.S[0].law]. *)
Definition family_of (l : law_name) : family :=
  match l with
  | Rigid => FamRigid                                                                   (* 116 *)
  | Viscous => FamViscous                                                               (* 126 *)
  | Bingham | Pouliquen | LinearMu => FamFlow                                           (* 163 *)
  | Dp | DpRate => FamDp                                                                (* 259 *)
  | UnknownLaw s =>
      if (String.eqb s "viscous_size" || String.eqb s "shear_maxwell" || String.eqb s "marks2012")%bool then FamViscous
      else if (String.eqb s "pouliquen2D" || String.eqb s "HB")%bool then FamFlow else FamOther
  | _ => FamOther                                                                       (* 272 *)
  end.

Section Draw.
  Context {T : Type} {N : Num T}.

  (** grid.py:96-97: [hstack([lo - d/2, (a[1:] + a[:-1])/2, hi + d/2])], the edges of
      the cells of a picture, for one direction. *)
  Definition edges (lo hi d : T) (a : list T) : list T :=
    (lo - d / nofZ 2) :: zipw (fun b c => (b + c) / nofZ 2) (tl a) (removelast a) ++ [hi + d / nofZ 2].
  (** grid.py:96. *)
  Definition x_plot (P : gridp T) (G : grid T) : list T := edges (x_m P) (x_M P) (gdx G) (linspace (x_m P) (x_M P) (nx P)).
  (** grid.py:97. *)
  Definition y_plot (P : gridp T) (G : grid T) : list T := edges (y_m P) (y_M P) (gdy G) (linspace (y_m P) (y_M P) (ny P)).

  (** grid.py:312-318, calculate_grad_gammadot without smoothing; nothing in the
      repository calls it. *)
  Definition calculate_grad_gammadot (fill : list bool -> list T -> list T) (P : params T) (G : grid T) : list (V3 T) :=
    calculate_gradient fill P G (map nabs (f_gammadot G)).                              (* 318 *)
  (** [G.grad_gammadot] after a step: grid.py:181 sets it to zero in [wipe], and
      nothing else assigns it. *)
  Definition grad_gammadot (P : params T) : list (V3 T) := repeat v0 (nodes (pG P)).

  (** A truth value in arithmetic. *)
  Definition b2n (b : bool) : T := if b then n1 else n0.
  (** plotting.py:83,85,86: the marks of [plt.plot(G.X*b,G.Y*b)]. *)
  Definition marks (G : grid T) (b : list bool) : list (T * T) :=
    zipw (fun xy c => (fst xy * b2n c, snd xy * b2n c)) (combine (gX G) (gY G)) b.
  (** plotting.py:81-86, draw_grid: the green pluses, the red crosses, the red pluses.
      draw_pretty_grid (88-92) draws the same marks in another style.  [1-b] is the
      negation of [b]. *)
  Definition draw_grid (G : grid T) : list (T * T) * list (T * T) * list (T * T) :=
    (marks G (map negb (btot G)), marks G (bh G), marks G (bv G)).                      (* 83, 85, 86 *)

  (** [ma.masked_invalid(a)] (plotting.py:153,229,268): a number that is not finite is
      not drawn. *)
  Definition visible (x : T) : option T := if nfin x then Some x else None.
  (** [ma.masked_invalid(z/G.m).reshape(ny,nx)] (plotting.py:153,229,268). *)
  Definition panel (P : gridp T) (m z : list T) : res (list (list (option T))) :=
    D <- reshape P (zipw ndiv z m) ;; Ok (map (map visible) D).

  (** plotting.py:113-325, draw_continuum: the panels, each with its label, in the
      order of the figure.  [So] is [P.S[0]].  The profile lines of the first axes
      (131-132, 168-169) are in [profile]; the predicted line of the mode
      'bi_seg_test' (174-184) is left out.  The last column of [G.dphi] is [last]
      of a row. *)
  Definition draw_continuum (P : params T) (So : solid T) (G : grid T) : res (list (title * list (list (option T)))) :=
    let mul := zipw nmul in let div := zipw ndiv in
    let qx := map vx (gq G) in let qy := map vy (gq G) in
    let rho := div (mul (gm G) (gm G)) (gV G) in
    let draw := mapM (fun tz => D <- panel (pG P) (gm G) (snd tz) ;; Ok (fst tz, D)) in
    match family_of (s_law So) with
    | FamRigid => Ok []
    | FamViscous => draw (combine
        [TU; TV; TSbar; TRho; TRate; TGradX; TGradY]                                    (* 140 *)
        [qx; qy; mul (g_sbar G) (gm G); rho;                                            (* 141-144 *)
         mul (map nabs (f_gammadot G)) (gm G);                                          (* 145 *)
         mul (map vx (grad_gammadot P)) (gm G);                                         (* 146 *)
         mul (map vy (grad_gammadot P)) (gm G)])                                        (* 147 *)
    | FamFlow => em <- attr (s_eta_max So) ;; draw (combine
        [TRho; TSbar; TU; TV; TRate; TPress; TShear; TRatio; TMu; TEta; TPk; TI; TGradPk; TDphi]   (* 191-199 *)
        [rho; mul (g_sbar G) (gm G); qx; qy;                                            (* 205-208 *)
         mul (map nabs (f_gammadot G)) (gm G);                                          (* 209 *)
         map nopp (f_pressure G); f_dev G;                                              (* 210-211 *)
         mul (map nabs (div (f_dev G) (f_pressure G))) (gm G);                          (* 212 *)
         f_mu G;                                                                        (* 213 *)
         map (fun e => e / em) (f_eta G);                                               (* 215; the mask of 215 is left out *)
         mul (g_pk G) (gm G); f_I G;                                                    (* 217-218 *)
         mul (map vy (g_gradpk G)) (gm G);                                              (* 222 *)
         mul (map (fun r => last r n0 / p_dt P) (g_dphi G)) (gm G)])                    (* 223 *)
    | FamDp => draw (combine
        [TRho; TSbar; TU; TV; TPress; TShear; TRate; TRatio]                            (* 264 *)
        [rho; mul (g_sbar G) (gm G); qx; qy; f_pressure G; f_dev G; map nabs (f_gammadot G);
         div (mul (gm G) (f_dev G)) (f_pressure G)])                                    (* 265 *)
    | FamOther =>                                                                       (* 272-316: no mask *)
        let draw1 t z := D <- reshape (pG P) z ;; Ok (t, map (map Some) D) in
        mapM (fun tz => draw1 (fst tz) (snd tz)) (combine
        [TRho; TU; TV; TYield; TSigV; TSigH; TRate; TPress; TShear; TDevDot]
        [div (gm G) (gV G); div qx (gm G); div qy (gm G); div (f_yield G) (gm G);       (* 275-289 *)
         div (f_sigmav G) (gm G); div (f_sigmah G) (gm G); div (f_gammadot G) (gm G);   (* 293-301 *)
         div (map nopp (f_pressure G)) (gm G); div (f_dev G) (gm G);                    (* 305-309 *)
         div (f_devdot G) (gm G)])                                                      (* 313 *)
    end.

  (** [a[nx//2::nx]] (plotting.py:131-132,168-169): the numbers of a column of nodes. *)
  Definition column (P : gridp T) (a : list T) : list T :=
    map (fun j => nth (j * nx P + Nat.div (nx P) 2) a n0) (seq 0 (ny P)).
  (** plotting.py:131,168: the line of [u] against [G.y], for an array of one number
      per node. *)
  Definition profile (P : gridp T) (G : grid T) : list (T * T) :=
    combine (column P (zipw (fun q m => vx q / m) (gq G) (gm G))) (linspace (y_m P) (y_M P) (ny P)).

  (** plotting.py:599-606, 613-617, draw_gsd_grid: a node lighter than [M_tol] is not
      drawn. *)
  Definition masked (P : params T) (m a : list T) : res (list (list (option T))) :=
    let z := zipw (fun m x => if m <? p_Mtol P then None else Some x) m a in
    if Nat.eqb (List.length z) (ny (pG P) * nx (pG P))
    then Ok (map (fun j => firstn (nx (pG P)) (skipn (j * nx (pG P)) z)) (seq 0 (ny (pG P))))
    else Err ValueError.
  (** plotting.py:598-623, draw_gsd_grid: the picture of the mean size and one for
      every size. *)
  Definition draw_gsd_grid (P : params T) (G : grid T) : res (list (list (option T)) * list (list (list (option T)))) :=
    D <- masked P (gm G) (g_sbar G) ;;                                                  (* 602 *)
    Ds <- mapM (fun i => masked P (gm G) (map (fun r => nth i r n0) (g_phi G))) (seq 0 (ns (pG P))) ;;  (* 612-616 *)
    Ok (D, Ds).

  (** A [patches.Wedge]: centre, radius, the two angles, and the number that picks the
      colour (plotting.py:548-556). *)
  Record wedge := mkWedge { wx : T; wy : T; wr : T; w1 : T; w2 : T; wc : T }.
  (** plotting.py:538-558: the loop over the sizes of one point, [phi_prev] is [a]. *)
  Fixpoint wedges (p : particle T) (w smax : T) (a : T) (ss fs : list T) : list wedge :=
    match ss, fs with
    | s :: ss', f :: fs' =>
        mkWedge (vx (px p)) (vy (px p)) w (a * nofZ 360) ((a + f) * nofZ 360) (s / smax)  (* 548-556 *)
        :: wedges p w smax (a + f) ss' fs'                                              (* 558 *)
    | _, _ => []
    end.
  (** plotting.py:529-563, draw_gsd_mp: for every phase the wedges of every point.  The
      radius is [0.1/P.G.nx].  [P.G.s] and [phi] have [P.G.ns] numbers (the loop of 538). *)
  Definition draw_gsd_mp (P : gridp T) (L : list (phase T)) : list (list (list wedge)) :=
    let w := (n1 / nofZ 10) / nofZ (Z.of_nat (nx P)) in                                 (* 530 *)
    map (fun ph => map (fun p => wedges p w (last (gs P) n0) n0 (gs P) (pphi p)) (firstn (ph_n ph) (ph_pts ph))) L.

  (** plotting.py:94-111, draw_gamma_dot, and 343, 393 of draw_material_points: the
      number that colours a point. *)
  Definition drawn_rate (P : params T) (p : particle T) : T := pgammadot p / p_dt P.    (* 102 *)
  (** plotting.py:94-111, draw_gamma_dot: for every phase that is not rigid the place
      and the colour of every point. *)
  Definition draw_gamma_dot (P : params T) (L : list (phase T)) : list (list (T * T * T)) :=
    map (fun ph => map (fun p => (vx (px p), vy (px p), drawn_rate P p)) (firstn (ph_n ph) (ph_pts ph)))
        (filter (fun ph => negb (is_rigid (s_law (ph_sol ph)))) L).
End Draw.
