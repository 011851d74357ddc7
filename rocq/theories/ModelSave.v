(** * The data files that a run writes: plotting.py:565-592. *)
From Coq Require Import List Bool Arith ZArith.
From Verif Require Import State ModelGrid ModelParticle ModelMPList.
Import ListNotations.
Local Open Scope num_scope.

Section Save.
  Context {T : Type} {N : Num T}.

  (** [a.reshape(P.G.ny,P.G.nx)] (plotting.py:568,574,580,581) of an array with
      one number per node: [ny] rows of [nx] numbers in the order of the array.
      An array of another size is a [ValueError]. *)
  Definition reshape (P : gridp T) (a : list T) : res (list (list T)) :=
    if Nat.eqb (length a) (ny P * nx P)
    then Ok (map (fun j => firstn (nx P) (skipn (j * nx P) a)) (seq 0 (ny P)))
    else Err ValueError.

  (** plotting.py:565-569, save_s_bar: the array given to [numpy.save].  The file
      name is in [ModelPlot.output]; the directory that is created is left out. *)
  Definition save_s_bar (P : params T) (G : grid T) : res (list (list T)) :=
    reshape (pG P) (g_sbar G).                                                          (* 568 *)

  (** plotting.py:571-575, save_density. *)
  Definition save_density (P : params T) (G : grid T) : res (list (list T)) :=
    reshape (pG P) (zipw ndiv (gm G) (gV G)).                                           (* 574 *)

  (** plotting.py:577-582, save_u: the arrays of the two files. *)
  Definition save_u (P : params T) (G : grid T) : res (list (list T) * list (list T)) :=
    u <- reshape (pG P) (zipw (fun q m => vx q / m) (gq G) (gm G)) ;;                   (* 580 *)
    v <- reshape (pG P) (zipw (fun q m => vy q / m) (gq G) (gm G)) ;;                   (* 581 *)
    Ok (u, v).

  (** plotting.py:584-592, save_phi_MP: a row for every point.  Rows of different
      lengths, which numpy cannot put in one array, are kept as they are. *)
  Definition save_phi_MP (L : list (phase T)) : res (list (list T)) :=
    rows <- mapM (fun ph =>
              if Nat.leb (ph_n ph) (length (ph_pts ph))
              then Ok (map (fun p => vx (px p) :: vy (px p) :: pphi p) (firstn (ph_n ph) (ph_pts ph))) (* 590 *)
              else Err IndexError) L ;;
    Ok (concat rows).
End Save.
