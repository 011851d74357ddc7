(** * A table with a row for every time step *)
From Coq Require Import List Bool ZArith.
From Verif Require Import State ModelGrid ModelMain.
Import ListNotations.
Local Open Scope num_scope.

Section Record_.
  Context {T : Type} {N : Num T}.

  (** inputs/anisotropy.py:12 and the same line of fluid.py, ball.py, flow.py, gsd.py,
      macro.py and others: [self.nt = int(self.t_f/self.dt)]. *)
  Definition nt (P : params T) : res Z := nint (p_tf P / p_dt P).
  (** initialise.py:99: [zeros((P.nt+1,4))]; a negative number of rows is a
      [ValueError]. *)
  Definition energy_table (P : params T) : res (list (list T)) :=
    n <- nt P ;;
    if (n + 1 <? 0)%Z then Err ValueError else Ok (repeat (repeat n0 4) (Z.to_nat (n + 1))).
  (** MPM.py:66 (commented out there; a script does it in its hook
      before_every_timestep, line 64): [P.O.energy[P.tstep] = ...] after every step, for
      the events of a run.  [row n t] is what is stored at step [n] and time [t]. *)
  Definition record (row : Z -> T -> list T) (tbl : list (list T)) (tr : list (event T)) : res (list (list T)) :=
    foldM (fun tbl e => match e with EBefore n t => py_upd tbl n (fun _ => row n t) | _ => Ok tbl end) tbl tr.
  (** plotting.py:516-522, draw_energy: the time and the four numbers drawn for every
      row; a row is time, kinetic, gravitational and strain energy. *)
  Definition draw_energy (tbl : list (list T)) : list (T * list T) :=
    map (fun r => let e := tl r in (hd n0 r, e ++ [fold_left nadd e n0])) tbl.          (* 518-522 *)
End Record_.
