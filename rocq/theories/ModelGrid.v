(** * Model of grid.py (class Grid). *)
From Coq Require Import ZArith List Bool Arith.
From Verif Require Import State.
Import ListNotations.

(** Read access to a grid array at a node number known to be in range. *)
Definition at0 {A} (d : A) (l : list A) (k : nat) : A := nth k l d.

Section Masks.
  Context {T : Type}.
  Local Open Scope Z_scope.

  Definition nodes (P : gridp T) : nat := (nx P * ny P)%nat.

  (** Set to [true] on a slice: [mask[start:stop:step] = 1]. *)
  Definition mark (start stop : option Z) (step : Z) (b : bool) (m : list bool) : list bool :=
    if b then map_slice start stop step (fun _ => true) m else m.

  (** grid.py:114-161, boundary: [boundary_v]. *)
  Definition boundary_v (P : gridp T) (B : bounds T) : list bool :=
    let nx := Z.of_nat (nx P) in
    let ny := Z.of_nat (ny P) in
    let m := repeat false (nodes P) in                                          (* 129 *)
    let m := mark None (Some nx) 1 (no_slip_bottom B) m in                      (* 132 *)
    let m := mark None None nx (has_left B) m in                                (* 134 *)
    let m := mark (Some (nx - 1)) None nx (has_right B) m in                    (* 135 *)
    let m := mark (Some ((nx - 1) / 2)) (Some ((ny * nx - 1) / 2)) nx (wall B) m in  (* 136 *)
    let m := mark (Some ((nx - 1) / 4)) (Some ((ny * nx - 1) / 2)) nx (two_walls B) m in (* 138 *)
    let m := mark (Some ((ny / 2) * nx + (3 * (nx - 1)) / 4)) None nx (two_walls B) m in (* 139 *)
    let m := mark (Some 1) (Some ((ny / 2 - 3) * nx)) nx (silo_left B) m in     (* 141 *)
    let m := mark (Some ((ny / 2 + 3) * nx + 1)) (Some (-1)) nx (silo_left B) m in (* 142 *)
    let m := mark (Some (4 * ny + 4)) (Some (8 * (ny + 1))) nx (box B) m in     (* 151 *)
    mark (Some (4 * ny + 8)) (Some (8 * (ny + 2))) nx (box B) m.                (* 152 *)

  (** grid.py:114-161, boundary: [boundary_h]. *)
  Definition boundary_h (P : gridp T) (B : bounds T) : list bool :=
    let nx := Z.of_nat (nx P) in
    let ny := Z.of_nat (ny P) in
    let m := repeat false (nodes P) in                                          (* 130 *)
    let m := mark None (Some nx) 1 (has_bottom B) m in                          (* 131 *)
    let m := mark (Some ((ny - 1) * nx)) None 1 (has_top B) m in                (* 133 *)
    let m := mark None (Some (nx / 2 - 2)) 1 (silo_bottom B) m in               (* 144 *)
    let m := mark (Some (nx / 2 + 3)) None 1 (silo_bottom B) m in               (* 145 *)
    let m := mark (Some (4 * ny + 4)) (Some (4 * ny + 8 + 1)) 1 (box B) m in    (* 153 *)
    mark (Some (8 * ny + 4)) (Some (8 * ny + 8 + 1)) 1 (box B) m.               (* 154 *)

  (** grid.py:155-159: [boundary_conveyor]. *)
  Definition boundary_conv (P : gridp T) (B : bounds T) : list bool :=
    mark (Some 2%Z) (Some (Z.of_nat (nx P) - 2)) 1 (conveyor B) (repeat false (nodes P)).

End Masks.

Section Grid.
  Context {T : Type} `{Num T}.
  Local Open Scope num_scope.

  (** numpy.linspace(a,b,n)[i]; grid.py:87-88. *)
  Definition linspace (a b : T) (n : nat) : list T :=
    map (fun i => a + nofZ (Z.of_nat i) * ((b - a) / nofZ (Z.of_nat n - 1))) (seq 0 n).

  (** grid.py:91-92: X = tile(x,ny), Y = repeat(y,nx). *)
  Definition tile {A} (k : nat) (l : list A) : list A := concat (repeat l k).
  Definition repeat_each {A} (k : nat) (l : list A) : list A :=
    concat (map (fun a => repeat a k) l).

  (** grid.py:163-170, volume. *)
  Definition weighting (P : gridp T) (B : bounds T) : list T :=
    let nx := Z.of_nat (nx P) in
    let ny := Z.of_nat (ny P) in
    let halve := fun w : T => w / n2 in
    let w := repeat n1 (nodes P) in                                             (* 164 *)
    let w := map_slice None (Some nx) 1 halve w in                              (* 165 *)
    let w := map_slice (Some ((ny - 1) * nx)%Z) None 1 halve w in                 (* 166 *)
    if cyclic_lr B then w else                                                  (* 167 *)
    let w := map_slice None None nx halve w in                                  (* 168 *)
    map_slice (Some (nx - 1)%Z) None nx halve w.                                  (* 169 *)

  Definition volume (P : gridp T) (B : bounds T) (dx dy : T) : list T :=
    map (fun w => w * dx * dy * thickness P) (weighting P B).                   (* 170 *)

  (** grid.py:77-94, __init__ (without the plotting arrays, 96-111).  The grid
      fields are created by [wipe]; before the first wipe they do not exist,
      the model starts with empty arrays. *)
  Definition grid_init (P : gridp T) (B : bounds T) : res (grid T) :=
    let xs := linspace (x_m P) (x_M P) (nx P) in                                (* 87 *)
    let ys := linspace (y_m P) (y_M P) (ny P) in                                (* 88 *)
    x1 <- nth_res xs 1 ;; x0 <- nth_res xs 0 ;;
    y1 <- nth_res ys 1 ;; y0 <- nth_res ys 0 ;;
    let dx := x1 - x0 in                                                        (* 89 *)
    let dy := y1 - y0 in                                                        (* 90 *)
    let v := boundary_v P B in
    let h := boundary_h P B in
    Ok (mkGrid dx dy (tile (ny P) xs) (repeat_each (nx P) ys)                   (* 91-92 *)
               (volume P B dx dy)
               v h (zipw orb v h)                                               (* 161 *)
               (boundary_conv P B)
               [] [] [] [] [] [] [] [] [] [] [] [] [] [] [] [] [] [] [] [] [] [] [] [] []).

  (** grid.py:172-207, wipe.  [damping_force], [grad_gammadot], [S], [u_hat]
      and [v_hat] are never read by the time loop except [S = tile(s)], which
      is inlined where it is used (mplist.py:139). *)
  Definition wipe (P : params T) (G : grid T) : grid T :=
    let n := nodes (pG P) in
    let z := repeat n0 n in
    let zv := repeat v0 n in
    let zs := repeat (repeat n0 (ns (pG P))) n in
    let G' := mkGrid (gdx G) (gdy G) (gX G) (gY G) (gV G) (bv G) (bh G) (btot G) (bconv G)
           z zv zv zv zv zv z z z z z z z z z z z z z z z zv
           (g_phim G) (g_phi G) zs in
    if p_seg P then G' <| g_phim := zs |> <| g_phi := zs |> else G'.            (* 202-204 *)

  (** grid.py:209-213, nearby_nodes. *)
  Definition nearby (n_star : Z) (r : nat) (nx : nat) : Z :=
    (match r with
     | 0%nat | 1%nat => n_star + Z.of_nat r
     | _ => n_star + Z.of_nat nx + 3 - Z.of_nat r
     end)%Z.

  (** grid.py:215-230, N: shape functions and gradients at local position. *)
  Definition shape (dx dy : T) (x : V3 T) : list T * list (V3 T) :=
    let a := vx x in
    let b := vy x in
    let d := dx * dy in
    ([ (dx - a) * (dy - b) / d;
       a * (dy - b) / d;
       a * b / d;
       (dx - a) * b / d ],
     [ vdivs (mkV3 (- (dy - b)) (- (dx - a)) n0) d;
       vdivs (mkV3 (dy - b) (- a) n0) d;
       vdivs (mkV3 b a n0) d;
       vdivs (mkV3 (- b) (dx - a) n0) d ]).

  (** grid.py:232-240, make_cyclic on one array. *)
  Definition cyc {A} (add : A -> A -> A) (nx : nat) (l : list A) : res (list A) :=
    let n := Z.of_nat nx in
    let temp_store := get_slice None None n l in                                (* 238 *)
    l1 <- zip_slice None None n add l (get_slice (Some (n - 1)%Z) None n l) ;;  (* 239 *)
    zip_slice (Some (n - 1)%Z) None n add l1 temp_store.                        (* 240 *)

  (** Truth value of [P.B.wall_mu] (False, or a number). *)
  Definition truthy_mu (o : option T) : option T :=
    match o with Some m => if m =? n0 then None else Some m | None => None end.

  (** grid.py:242-255, BCs. [rho0] is [P.S[0].rho]. *)
  Definition BCs (P : params T) (rho0 : T) (G : grid T) : res (grid T) :=
    let nxz := Z.of_nat (nx (pG P)) in
    let nyz := Z.of_nat (ny (pG P)) in
    let B := pB P in
    let G1 :=
      if vertical_force B then
        let qv := ld_qv (p_loads P) in
        let e := map_slice None (Some nxz) 1 (sety (fun a => a + qv)) (gext G) in       (* 247 *)
        let e := map_slice (Some ((nyz - 1) * nxz)%Z) None 1 (sety (fun a => a - qv)) e in  (* 248 *)
        let f := zipw (fun f em => sety (fun a => a + n2 * vy (fst em) * snd em / rho0 / gdy G) f)
                      (gfe G) (combine e (gm G)) in                                     (* 249 *)
        G <| gext := e |> <| gfe := f |>
      else G in
    let G2 :=
      if horizontal_force B then
        let qh := ld_qh (p_loads P) in
        let e := map_slice None None nxz (setx (fun a => a + qh)) (gext G1) in          (* 251 *)
        let e := map_slice (Some (nxz - 1)%Z) None nxz (setx (fun a => a - qh)) e in    (* 252 *)
        let f := zipw (fun f em => setx (fun a => a + n2 * vx (fst em) * snd em / rho0 / gdx G1) f)
                      (gfe G1) (combine e (gm G1)) in                                   (* 253 *)
        G1 <| gext := e |> <| gfe := f |>
      else G1 in
    if p_aniso P && (p_t P =? n0) then Err IndexError    (* 254-255: float index nx*ny/2 *)
    else Ok G2.

  (** The rough-wall friction branch, grid.py:269-285.  The chained assignments
      [bottom = self.boundary_h[:nx] = 1] mark the walls in the masks and bind
      [bottom], [top], [left], [right] to the integer 1, so lines 279-282 act on
      node 1 only. *)
  Definition friction_masks (P : params T) (G : grid T) : list bool * list bool :=
    let nxz := Z.of_nat (nx (pG P)) in
    let nyz := Z.of_nat (ny (pG P)) in
    let h := map_slice None (Some nxz) 1 (fun _ => true) (bh G) in                      (* 270 *)
    let h := map_slice (Some ((nyz - 1) * nxz)%Z) None 1 (fun _ => true) h in           (* 271 *)
    let v := map_slice None None nxz (fun _ => true) (bv G) in                          (* 272 *)
    let v := map_slice (Some (nxz - 1)%Z) None nxz (fun _ => true) v in                 (* 273 *)
    (v, h).

  Definition friction (mu : T) (v h : list bool) (qd : list (V3 T)) : list (V3 T) :=
    mapi (fun i vhq =>
      let '((bvi, bhi), q) := vhq in
      let Ffh := nofb bhi * nmin (nabs (vx q)) (mu * nabs (vy q)) in                    (* 275 *)
      let Ffv := nofb bvi * nmin (nabs (vy q)) (mu * nabs (vx q)) in                    (* 276 *)
      let Ffv := if Nat.eqb i 1 then Ffv * nofb (vx q <? n0) * nofb (n0 <? vx q) else Ffv in (* 279-280 *)
      let Ffh := if Nat.eqb i 1 then Ffh * nofb (n0 <? vy q) * nofb (vy q <? n0) else Ffh in (* 281-282 *)
      mkV3 (vx q - nsign (vx q) * Ffh) (vy q - nsign (vy q) * Ffv) (vz q))              (* 284-285 *)
      (combine (combine v h) qd).

  Definition mask_x (b : list bool) (q : list (V3 T)) : list (V3 T) :=
    zipw (fun bi qi => setx (fun a => a * (n1 - nofb bi)) qi) b q.
  Definition mask_y (b : list bool) (q : list (V3 T)) : list (V3 T) :=
    zipw (fun bi qi => sety (fun a => a * (n1 - nofb bi)) qi) b q.

  (** grid.py:257-296, update_momentum. *)
  Definition update_momentum (P : params T) (G : grid T) : res (grid T) :=
    let B := pB P in
    let qd := zipw vsub (gfe G) (gfi G) in                                              (* 264 *)
    let qd := if p_damping P then map (fun q => vmuls q (lit 7 10)) qd else qd in       (* 265 *)
    let '(v, h, qd) :=
      if roughness B then
        match truthy_mu (wall_mu B) with
        | Some mu => let '(v, h) := friction_masks P G in (v, h, friction mu v h qd)    (* 269-285 *)
        | None => (bv G, bh G, mask_y (bv G) (mask_x (bh G) qd))                        (* 287-288 *)
        end
      else (bv G, bh G, qd) in
    let qd := mask_y h (mask_x v qd) in                                                 (* 291-292 *)
    let q := zipw (fun a b => vadd a (vmuls b (p_dt P))) (gq G) qd in                   (* 294 *)
    let G' := G <| bv := v |> <| bh := h |> <| gqd := qd |> <| gq := q |> in
    if conveyor B then
      v0 <- attr (p_v0 P) ;;
      Ok (G' <| gq := zipw (fun bq m => if fst bq : bool then setx (fun _ => v0 * m) (snd bq) else snd bq)
                           (combine (bconv G) q) (gm G) |>)                             (* 296 *)
    else Ok G'.

  (** One-dimensional numpy.gradient with uniform spacing [h] of the values
      [f 0 ... f (n-1)] at position [i]. *)
  Definition grad1 (f : nat -> T) (h : T) (n i : nat) : T :=
    if Nat.eqb i 0 then (f 1%nat - f 0%nat) / h
    else if Nat.eqb i (n - 1) then (f (n - 1)%nat - f (n - 2)%nat) / h
    else (f (i + 1)%nat - f (i - 1)%nat) / (n2 * h).

  (** numpy.gradient of a flattened (ny,nx) array along x (axis 1) and along y
      (axis 0), at node number [k]. *)
  Definition gradx (nx : nat) (Z : list T) (h : T) (k : nat) : T :=
    grad1 (fun i => at0 n0 Z ((k / nx) * nx + i)) h nx (k mod nx).
  Definition grady (nx ny : nat) (Z : list T) (h : T) (k : nat) : T :=
    grad1 (fun j => at0 n0 Z (j * nx + k mod nx)) h ny (k / nx).

  (** grid.py:321-362, calculate_gradient without smoothing.  [fill mask Z]
      stands for [interpolate_replace_nans] (astropy) applied to the field [Z]
      masked at the nodes lighter than [M_tol]. *)
  Definition calculate_gradient (fill : list bool -> list T -> list T)
             (P : params T) (G : grid T) (Z : list T) : list (V3 T) :=
    let mask := map (fun m => m <? p_Mtol P) (gm G) in                                  (* 331 *)
    let Zi := map nan0 (fill mask Z) in                                                 (* 335, 338 *)
    map (fun k => mkV3 (gradx (nx (pG P)) Zi (gdx G) k)
                       (grady (nx (pG P)) (ny (pG P)) Zi (gdy G) k) n0)
        (seq 0 (nodes (pG P))).                                                         (* 338, 359-361 *)

  (** grid.py:298-310, calculate_gammadot. *)
  Definition calculate_gammadot (fill : list bool -> list T -> list T)
             (P : params T) (G : grid T) : grid T :=
    let u := zipw (fun q m => vx q / m) (gq G) (gm G) in                                (* 304 *)
    let v := zipw (fun q m => vy q / m) (gq G) (gm G) in                                (* 305 *)
    let gu := calculate_gradient fill P G u in
    let gv := calculate_gradient fill P G v in
    G <| f_gammadot := zipw (fun a b => vy a + vx b) gu gv |>.                          (* 308-310 *)

  (** grid.py:376-416, update_pk.  [rho_s] is [P.S[0].rho_s]. *)
  Definition update_pk (fill : list bool -> list T -> list T)
             (P : params T) (rho_s : T) (G : grid T) : grid T :=
    let pk := zipw (fun gs pm => nabs (fst gs) * snd gs * nsqrt (rho_s * nabs (fst pm / snd pm)))
                   (combine (f_gammadot G) (g_sbar G)) (combine (f_pressure G) (gm G)) in (* 414 *)
    let G' := G <| g_pk := pk |> in
    G' <| g_gradpk := calculate_gradient fill P G' pk |>.                               (* 416 *)
End Grid.
