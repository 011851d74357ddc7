(** * Model of MPM.py: one time step and the main loop. *)
From Coq Require Import ZArith List Bool Arith.
From Verif Require Import State ModelGrid ModelConstit ModelParticle ModelMPList ModelIntegr.
Import ListNotations.

Section Main.
  Context {T : Type} `{Num T}.
  Local Open Scope num_scope.

  (** What is left open: [uf P] are the loads after [P.update_forces()]
      (inputs/*.py), [fill] is astropy's interpolate_replace_nans. *)
  Context (uf : params T -> loads T) (fill : list bool -> list T -> list T).

  (** MPM.py:33-38, the segregation part of a step. *)
  Definition segregate (P : params T) (L : list (phase T)) (G : grid T)
    : res (list (phase T) * grid T) :=
    S0 <- sol0 L ;;
    rho_s <- attr (s_rho_s S0) ;;
    let G := update_pk fill P rho_s G in                                        (* 34 *)
    G <- calculate_phi_increment P rho_s G ;;                                   (* 36 *)
    L <- move_grainsize P G L ;;                                                (* 37 *)
    G <- cyc_fields P [Feta] G ;;                                               (* 38 *)
    Ok (L, G).

  (** MPM.py:40-45, points that leave or enter. *)
  Definition inout (P : params T) (L : list (phase T)) : res (list (phase T)) :=
    L <- (if outlet_left (pB P) then outlet_left_f P L else Ok L) ;;            (* 41 *)
    L <- (if outlet_bottom (pB P) then outlet_bottom_f P L else Ok L) ;;        (* 42 *)
    L <- (if inlet_right (pB P) then inlet_right_f P L else Ok L) ;;            (* 43 *)
    L <- (if inlet_top (pB P) then inlet_top_f P L else Ok L) ;;                (* 44 *)
    if cyclic_lr (pB P) then cyclic_lr_f P L else Ok L.                         (* 45 *)

  (** MPM.py:19-46, time_march. *)
  Definition time_march (s : state T) : res (state T) :=
    S0 <- sol0 (sL s) ;;
    let G := wipe (sP s) (sG s) in                                              (* 20 *)
    let P := sP s <| p_loads := uf (sP s) |> in                                 (* 21 *)
    L <- update_forces P (sL s) ;;                                              (* 22 *)
    L <- ref_nodes P G L ;;                                                     (* 23 *)
    L <- basis_all G L ;;                                                       (* 24 *)
    _ <- (if p_check P then check_positions P G L else Ok tt) ;;                (* 25 *)
    G <- p2g_all P L G ;;                                                       (* 26 *)
    G <- (if cyclic_lr (pB P) then cyc_mq P G else Ok G) ;;                     (* 27 *)
    '(L, G) <- stress_strain P L G ;;                                           (* 28 *)
    G <- forces_all P L G ;;                                                    (* 29 *)
    G <- BCs P (s_rho S0) G ;;                                                  (* 30 *)
    G <- update_momentum P G ;;                                                 (* 31 *)
    let G := calculate_gammadot fill P G in                                     (* 32 *)
    '(L, G) <- (if p_seg P then segregate P L G else Ok (L, G)) ;;              (* 33-38 *)
    L <- move_all P G L ;;                                                      (* 39 *)
    L <- inout P L ;;                                                           (* 40-45 *)
    Ok (mkState P G L).

  (** Output hooks called by main, in order, with the step number and time. *)
  Inductive event := EInitial | EBefore (n : Z) (t : T) | ESave (n : Z) (t : T)
                   | EAfter (n : Z) (t : T) | EFinal.

  (** numpy.amax / numpy.min of a non-empty list. *)
  Definition lmax (l : list T) : res T :=
    match l with [] => Err ValueError | a :: l => Ok (fold_left nmax l a) end.
  Definition lmin (l : list T) : res T :=
    match l with [] => Err ValueError | a :: l => Ok (fold_left nmin l a) end.

  (** initialise.py:106-116, the default update_timestep. *)
  Definition dynamic_dt (P : params T) (G : grid T) (L : list (phase T)) : res T :=
    dx <- attr (pdx (pG P)) ;; dy <- attr (pdy (pG P)) ;;
    let distance := nmin dx dy in                                               (* 107 *)
    vmax <- lmax (zipw (fun q m => nabs (nan0 (vx q / m))) (gq G) (gm G) ++
                  zipw (fun q m => nabs (nan0 (vy q / m))) (gq G) (gm G)) ;;
    let tc := lit 1 10 * distance / vmax in                                     (* 108 *)
    let crit := flat_map (fun ph => match s_crit (ph_sol ph) with Some c => [c] | None => [] end) L in
    m <- lmin (tc :: crit) ;;                                                   (* 112-114 *)
    Ok (p_CFL P * m).

  (** MPM.py:71: is this a step at which results are saved? *)
  Definition save_due (P : params T) : res bool :=
    m <- nmod (p_t P) (p_savetime P) ;;
    Ok ((m <? p_dt P) && negb (p_t P =? p_dt P)).

  (** MPM.py:62-93, one pass of the loop.  The hooks are assumed not to change
      the state; line 68 divides by [t_f]. *)
  Definition pass (s : state T) (tr : list event) : res (state T * list event) :=
    s <- time_march s ;;                                                        (* 63 *)
    let P := sP s in
    let tr := tr ++ [EBefore (p_tstep P) (p_t P)] in                            (* 64 *)
    if p_tf P =? n0 then Err ZeroDivisionError else                             (* 68 *)
    due <- save_due P ;;
    let tr := if due : bool then tr ++ [ESave (p_tstep P) (p_t P)] else tr in   (* 71-72 *)
    let tr := tr ++ [EAfter (p_tstep P) (p_t P)] in                             (* 85 *)
    let P := P <| p_t := p_t P + p_dt P |> <| p_tstep := (p_tstep P + 1)%Z |> in (* 90-91 *)
    dt <- (if p_dynamic P then dynamic_dt P (sG s) (sL s) else Ok (p_dt P)) ;;  (* 93 *)
    Ok (s <| sP := P <| p_dt := dt |> |>, tr).

  (** MPM.py:62, the while loop: [None] if it is still running after [fuel]
      passes. *)
  Fixpoint march (fuel : nat) (s : state T) (tr : list event) : option (res (state T * list event)) :=
    if p_t (sP s) <=? p_tf (sP s) then
      match fuel with
      | O => None
      | S fuel => match pass s tr with
                  | Ok (s, tr) => march fuel s tr
                  | Err e => Some (Err e)
                  end
      end
    else Some (Ok (s, tr)).

  (** MPM.py:48-114, main, after get_parameters. *)
  Definition main_loop (fuel : nat) (s : state T) : option (res (state T * list event)) :=
    match march fuel s [EInitial] with
    | Some (Ok (s, tr)) => Some (Ok (s, tr ++ [EFinal]))
    | r => r
    end.
End Main.
Arguments event : clear implicits.
