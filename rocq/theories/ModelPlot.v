(** * Model of the output functions of plotting.py: which files are written.

    The drawing itself (matplotlib) and the contents of the files are not
    modelled, it is assumed to succeed and not to touch the counters.  The
    counters are natural numbers: they start at 0 (initialise.py:15-16,
    plotting.py:567,573,579,586) or at a natural number set by the user.  File
    names are relative to [P.save_dir], which is fixed during a run. *)
From Coq Require Import List Bool Arith Ascii String DecimalString.
From Verif Require Import State.
Import ListNotations.
Local Open Scope string_scope.

(** Python's [str(n)] for a natural number. *)
Definition str (n : nat) : string := NilZero.string_of_uint (Nat.to_uint n).

Fixpoint zeros (n : nat) : string := match n with 0 => "" | Datatypes.S n => String "0" (zeros n) end.

(** Python's [s.zfill(w)]: a leading sign stays in front. *)
Definition zfill (w : nat) (s : string) : string :=
  let pad := zeros (w - String.length s) in
  match s with
  | String c r => if (Ascii.eqb c "+" || Ascii.eqb c "-")%bool then String c (pad ++ r) else pad ++ s
  | "" => pad
  end.

(** The counters [P.grid_save], [P.mp_save], [P.s_bar_save], [P.density_save],
    [P.u_save], [P.mp_phi_save]. *)
Record counters := mkCounters {
  c_grid : nat; c_mp : nat; c_sbar : nat; c_dens : nat; c_u : nat; c_phi : nat }.

Record outputs := mkOut {
  o_rigid : list bool;     (* for each phase: is [P.S[p].law] 'rigid'? *)
  o_ns : nat }.            (* [P.G.ns] *)
(** [P.phases] (initialise.py:68). *)
Definition o_phases (O : outputs) : nat := List.length (o_rigid O).

(** The public output functions; [name] is the optional argument of
    draw_material_points, [None] standing for a false value. *)
Inductive call := DrawContinuum | DrawMP (name : option string) | DrawGsdMP | DrawGsdGrid
                | SaveSbar | SaveDensity | SaveU | SavePhiMP.

(** plotting.py:54-79, savefig. *)
Definition png (name : string) : string := name ++ ".png".

(** One call: files written, new counters. *)
Definition output (O : outputs) (c : call) (k : counters) : res (list string * counters) :=
  match c with
  | DrawContinuum =>                                                            (* 113-325 *)
      match o_rigid O with
      | [] => Err IndexError                                                    (* P.S[0], 116 *)
      | r :: _ => Ok (if r then [] else [png ("Continuum/" ++ zfill 5 (str (c_grid k)))],   (* 324 *)
                      mkCounters (c_grid k + 1) (c_mp k) (c_sbar k) (c_dens k) (c_u k) (c_phi k))  (* 325 *)
      end
  | DrawMP name =>                                                              (* 327-514 *)
      Ok (map (fun p => match name with
                 | Some s => png ("MP_" ++ str p ++ "/" ++ zfill 5 s)           (* 511 *)
                 | None => png ("MP_" ++ str p ++ "/" ++ zfill 5 (str (c_mp k)))  (* 513 *)
                 end) (seq 0 (o_phases O)),
          mkCounters (c_grid k) (c_mp k + 1) (c_sbar k) (c_dens k) (c_u k) (c_phi k))  (* 514 *)
  | DrawGsdMP =>                                                                (* 529-563 *)
      Ok (map (fun p => png ("GSD/MP_" ++ str p ++ "_" ++ zfill 5 (str (c_mp k)))) (seq 0 (o_phases O)),
          mkCounters (c_grid k) (c_mp k + 1) (c_sbar k) (c_dens k) (c_u k) (c_phi k))
  | DrawGsdGrid =>                                                              (* 598-623 *)
      Ok (png ("GSD/s_bar/" ++ zfill 5 (str (c_grid k))) ::
          map (fun i => png ("GSD/phi_" ++ str i ++ "/" ++ zfill 5 (str (c_grid k)))) (seq 0 (o_ns O)), k)
  | SaveSbar =>                                                                 (* 565-569 *)
      Ok (["data/s_bar_" ++ zfill 5 (str (c_sbar k)) ++ ".npy"],
          mkCounters (c_grid k) (c_mp k) (c_sbar k + 1) (c_dens k) (c_u k) (c_phi k))
  | SaveDensity =>                                                              (* 571-575 *)
      Ok (["data/density_" ++ zfill 5 (str (c_dens k)) ++ ".npy"],
          mkCounters (c_grid k) (c_mp k) (c_sbar k) (c_dens k + 1) (c_u k) (c_phi k))
  | SaveU =>                                                                    (* 577-582 *)
      Ok (["data/u_" ++ zfill 5 (str (c_grid k)) ++ ".npy"; "data/v_" ++ zfill 5 (str (c_grid k)) ++ ".npy"],
          mkCounters (c_grid k) (c_mp k) (c_sbar k) (c_dens k) (c_u k + 1) (c_phi k))
  | SavePhiMP =>                                                                (* 584-592 *)
      Ok (["data/MP_phi_" ++ zfill 5 (str (c_phi k)) ++ ".npy"],
          mkCounters (c_grid k) (c_mp k) (c_sbar k) (c_dens k) (c_u k) (c_phi k + 1))
  end.

(** A sequence of calls: the files each call writes, in order. *)
Fixpoint outputs_of (O : outputs) (cs : list call) (k : counters) : res (list (list string)) :=
  match cs with
  | [] => Ok []
  | c :: cs => '(fs, k) <- output O c k ;; r <- outputs_of O cs k ;; Ok (fs :: r)
  end.
