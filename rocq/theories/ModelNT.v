(** * Model of the parts of integrators.py and mplist.py that the time loop does
    not call: the NT scheme, normalise_phi_increment and the nodal mean size. *)
From Coq Require Import ZArith List Bool Arith.
From Verif Require Import State ModelGrid ModelConstit ModelParticle ModelMPList ModelIntegr.
Import ListNotations.

Section NT.
  Context {T : Type} `{Num T}.
  Local Open Scope num_scope.

  (** One round of [hstack([g[:ny], g, g[-ny:]])] (integrators.py:107-109). *)
  Definition pad1 {A} (n : nat) (f : nat -> A) (i : nat) : A := f (Nat.min (i - 1) (n - 1)).

  (** integrators.py:89-130, flux, at one node: fractions [phi], class of size
      [s] with fraction [f].  (97: [S_bar] is not used.) *)
  Definition nt_flux (c : T) (ss phi : list T) (s f g : T) (blocked : bool) : T :=
    if blocked then n0                                                         (* 129 *)
    else c * (n1 - n1 / (inv_size ss phi * s)) * g * f.                        (* 127-128 *)

  (** integrators.py:132-150, NT on one line of [n] nodes, class number [k] at
      position [i < n]; pad_NT (75-87) copies the end values twice. *)
  Definition nt_line (dt dx c : T) (ss : list T) (n : nat)
             (phi : nat -> list T) (g : nat -> T) (b : nat -> bool) (k i : nat) : T :=
    let U := fun k i => nth k (pad2 n phi i) n0 in
    let F := fun k i => nt_flux c ss (pad2 n phi i) (nth k ss n0) (U k i) (pad2 n g i) (pad2 n b i) in  (* 136 *)
    let U' := fun k j => limiter (U k (j + 2)%nat - U k (j + 1)%nat) (U k (j + 1)%nat - U k j) in                  (* 135 *)
    let F' := fun k j => limiter (F k (j + 2)%nat - F k (j + 1)%nat) (F k (j + 1)%nat - F k j) in                  (* 137 *)
    let us := fun k j => U k (j + 1)%nat + dt * F' k j / (n2 * dx) in                                      (* 139 *)
    let Fs := fun k j => nt_flux c ss (map (fun k => us k j) (seq 0 (length ss))) (nth k ss n0)
                                 (us k j) (pad1 n g j) (pad1 n b j) in                                 (* 140 *)
    let un := fun k j => nhalf * (U k (j + 1)%nat + U k (j + 2)%nat) +
                         lit 1 8 * (U' k j - U' k (j + 1)%nat) +
                         dt * (Fs k (j + 1)%nat - Fs k j) / dx in                                          (* 142-145 *)
    (un k (i + 1)%nat + un k i) / n2 - nth k (phi i) n0.                                                   (* 147-150 *)

  (** NT along x ([ax=0]) and along y ([ax=1]). *)
  Definition NT0 (P : params T) (G : grid T) : res (list (list T)) :=
    let nx := nx (pG P) in
    dx <- attr (pdx (pG P)) ;; ss <- sizes P ;; c <- attr (p_c P) ;;
    Ok (map (fun m => let j := (m / nx)%nat in
              map (fun k => nt_line (p_dt P) dx c ss nx
                              (fun i => at0 [] (g_phi G) (j * nx + i))
                              (fun i => vx (at0 v0 (g_gradpk G) (j * nx + i)))
                              (fun i => blocked P G (j * nx + i)) k (m mod nx))
                  (seq 0 (ns (pG P))))
            (seq 0 (nodes (pG P)))).
  Definition NT1 (P : params T) (G : grid T) : res (list (list T)) :=
    let nx := nx (pG P) in
    dy <- attr (pdy (pG P)) ;; ss <- sizes P ;; c <- attr (p_c P) ;;
    Ok (map (fun m => let i := (m mod nx)%nat in
              map (fun k => nt_line (p_dt P) dy c ss (ny (pG P))
                              (fun j => at0 [] (g_phi G) (j * nx + i))
                              (fun j => vy (at0 v0 (g_gradpk G) (j * nx + i)))
                              (fun j => blocked P G (j * nx + i)) k (m / nx))
                  (seq 0 (ns (pG P))))
            (seq 0 (nodes (pG P)))).

  (** integrators.py:285-296, normalise_phi_increment, one class: fractions [f]
      and increments [d] of the nodes.  [masked_invalid] leaves out the entries
      that are not finite; here these keep the invalid sum, in the code they
      become NaN.  [phi[phi<0] = 0] and [phi[phi>1] = 1] act on the valid
      entries; [sum(sum(phi))] is the sum over the valid entries. *)
  Definition clip01 (a : T) : T :=
    let a := if a <? n0 then n0 else a in if n1 <? a then n1 else a.           (* 290-291 *)
  Definition norm_inc (f d : list T) : list T :=
    let x := zipw nadd f d in                                                  (* 288 *)
    let tot := lsum (filter nfin x) in                                         (* 289 *)
    let y := map (fun a => if nfin a then clip01 a else a) x in
    let r := tot / lsum (filter nfin y) in                                     (* 292 *)
    zipw nsub (map (fun a => if nfin a then a * r else a) y) f.                (* 293 *)
  (** The loop over the classes (287) writes column [i] of the copy (286). *)
  Definition column (k : nat) (M : list (list T)) : list T := map (fun r => nth k r n0) M.
  Definition normalise_phi_increment (P : params T) (G : grid T) (dphi : list (list T)) : list (list T) :=
    let cols := map (fun k => norm_inc (column k (g_phi G)) (column k dphi)) (seq 0 (ns (pG P))) in
    map (fun m => map (fun c => nth m c n0) cols) (seq 0 (length dphi)).
End NT.

Section Gsd.
  Context {T : Type} `{Num T}.
  Local Open Scope num_scope.

  (** particle.py:216-226, update_nodal_gsd.  No class of /repo gives particles
      an attribute [size]; [size] is its value if a user has added it. *)
  Definition update_nodal_gsd (P : params T) (size : option T) (p : particle T) (G : grid T) : res (grid T) :=
    four P (pnstar p)
      (fun G r n =>
         m <- py_get (gm G) n ;;
         if p_Mtol P <? m then
           s <- attr size ;;
           a <- py_upd (g_sbar G) n (fun a => a + Nr p r * pm p * s) ;;        (* 226 *)
           Ok (G <| g_sbar := a |>)
         else Ok G) G.

  (** mplist.py:204-217, get_nodal_gsd; [size p] is the attribute of [p];
      [seg_mp] is [P.segregate_mp]. *)
  Definition get_nodal_gsd (P : params T) (seg_mp : bool) (size : particle T -> option T)
             (L : list (phase T)) (G : grid T) : res (grid T) :=
    G <- points_r (fun _ _ p G => update_nodal_gsd P (size p) p G) L G ;;       (* 211-213 *)
    Ok (if p_seg P || seg_mp then G <| g_sbar := zipw ndiv (g_sbar G) (gm G) |> else G). (* 214-217 *)

  (** particle.py:234-245, map_gsd_to_mp: the new [self.s_bar]. *)
  Definition map_gsd_to_mp (P : params T) (G : grid T) (p : particle T) : res T :=
    four P (pnstar p)
      (fun s r n =>
         m <- py_get (gm G) n ;;
         if p_Mtol P <? m then a <- py_get (g_sbar G) n ;; Ok (s + Nr p r * a)  (* 245 *)
         else Ok s) n0.

  (** particle.py:202-214, add_to_boundary: marks the four nodes of the cell. *)
  Definition add_to_boundary (P : params T) (G : grid T) (p : particle T) : res (list bool) :=
    four P (pnstar p) (fun mk _ n => py_upd mk n (fun _ => true)) (map (fun _ => false) (bv G)).
End Gsd.
