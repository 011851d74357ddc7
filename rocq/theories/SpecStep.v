(** * Histories: what a run of the main loop can reach. *)
From Coq Require Import ZArith List Reals.
From Verif Require Import State NumR ModelMain Spec.
Import ListNotations.

Section Reach.
  Context {T : Type} `{Num T}.
  Context (uf : params T -> loads T) (fill : list bool -> list T -> list T).

  (** [s'] is the state after some number of passes of the main loop from [s],
      none of which raised an exception. *)
  Inductive reach (s : state T) : state T -> Prop :=
  | reach_0 : reach s s
  | reach_S s1 tr s2 tr' : reach s s1 -> pass uf fill s1 tr = Ok (s2, tr') -> reach s s2.
End Reach.

(** The attributes that a constitutive law reads (constit.py) are present.
    [S0] is the first phase, [S] the phase itself.  Pouliquen and ken_simple stop
    the program on purpose for non-finite stresses and linear_mu needs the size
    distribution; they are not listed. *)
Definition has {A} (o : option A) : Prop := o <> None.
Definition scalar_attr {T} (o : option (scarr T)) : Prop := exists x, o = Some (Sc x).
Definition equipped {T} (S0 S : solid T) : Prop :=
  match s_law S with
  | Rigid => True
  | Elastic => has (s_K S) /\ has (s_G S)
  | ElasticTime => has (s_t_0 S) /\ has (s_rho_f S) /\ has (s_E_0 S) /\ has (s_nu S)
  | VonMises => has (s_K S) /\ has (s_G S) /\ has (s_k S) /\ has (s_s S)
  | DpRate => has (s_mu S0) /\ has (s_G S0) /\ has (s_t_star S0) /\ has (s_K S0) /\ has (s_beta S0) /\ has (s_mu S)
  | Viscous => has (s_K S) /\ has (s_mu_s S) /\ has (s_mu_v S)
  | Bingham => has (s_K S) /\ has (s_gamma_c S) /\ scalar_attr (s_mu_0 S) /\ has (s_mu_s S) /\ has (s_tau_0 S) /\ has (s_mu_v S)
  | KenKamrin => has (s_K S) /\ has (s_mu_s S) /\ has (s_mu_2 S) /\ scalar_attr (s_I_0 S) /\ has (s_mu_v S)
  | _ => False
  end.

(** Walls on all four sides: the nodes of the first and last column carry the
    vertical-wall mark, those of the first and last row the horizontal-wall mark. *)
Definition closed {T} (Pg : gridp T) (G : grid T) : Prop :=
  forall k, (k < nx Pg * ny Pg)%nat ->
  (col Pg k = 0%nat \/ col Pg k = (nx Pg - 1)%nat -> nth k (bv G) false = true) /\
  (row Pg k = 0%nat \/ row Pg k = (ny Pg - 1)%nat -> nth k (bh G) false = true).

(** The CFL condition on a grid: in a time [dt] no node heavier than [M_tol]
    moves by as much as a cell. *)
Definition cfl (dt : R) (P : params R) (G : grid R) : Prop :=
  (0 <= dt /\ forall k, (k < nx (pG P) * ny (pG P))%nat -> p_Mtol P < nth k (gm G) 0 ->
  dt * Rabs (vx (nth k (gq G) v0) / nth k (gm G) 0) < cell_w (pG P) /\
  dt * Rabs (vy (nth k (gq G) v0) / nth k (gm G) 0) < cell_h (pG P))%R.
