(** * Segregation and the two ends of the grid: C112.
    Statements only; the proofs are in ThmSeamQ.v. *)
From Coq Require Import ZArith QArith Qabs List Bool Arith Lia.
From RecordUpdate Require Import RecordUpdate.
From Verif Require Import State NumQ ModelGrid ModelMain Concrete ThmSieveQ.
Import ListNotations.
From Verif Require Import ThmSeamQ.
Local Open Scope Q_scope.

(** The claim is that on a cylinder it does not matter where the ends are joined.  For the motion this is C93; here it
    holds for the motion too, yet the mixtures of the grains differ: the fractions at the two ends of a row, which are the
    same place, are kept apart. *)
Theorem C112_seam_refuted : exists (G : grid Q) s1 t1,
  grid_init (T := Q) ex_gridp (ex_bounds <| cyclic_lr := true |>) = Ok G /\
  time_march (fun _ => mkLoads 0 0 0 0) (fun _ l => l) (seam_state true 0 G) = Ok s1 /\
  time_march (fun _ => mkLoads 0 0 0 0) (fun _ l => l) (seam_state true 1 G) = Ok t1 /\
  mixtures (seam_state true 1 G) = mixtures (seam_state true 0 G) /\
  qred_all (ys t1) = qred_all (ys s1) /\
  qred_all (xs t1) = qred_all (map (fun x => if Qlt_le_dec (x + 1) 3 then x + 1 else x - 2) (xs s1)) /\
  map qred_all (mixtures t1) <> map qred_all (mixtures s1).
Proof. exact p_C112_seam_refuted. Qed.
Print Assumptions C112_seam_refuted.

(** The claim is that the viscosity field is the one of the grains near a node, as it is without segregation.  With
    segregation it shows at the right end, three cells away from the only point, what belongs to the left end. *)
Theorem C112_ends_refuted : exists (G : grid Q) s1 t1,
  grid_init (T := Q) ex_gridp ex_bounds = Ok G /\ cyclic_lr (T := Q) ex_bounds = false /\
  time_march (fun _ => mkLoads 0 0 0 0) (fun _ l => l) (end_state true G) = Ok s1 /\
  time_march (fun _ => mkLoads 0 0 0 0) (fun _ l => l) (end_state false G) = Ok t1 /\
  (nth 3 (gX G) 0 == 3 /\ nth 3 (gY G) 0 == 0) /\
  nth 3 (gm (sG s1)) 0 == 0 /\
  nth 0 (f_eta (sG t1)) 0 == 1 # 2 /\ nth 3 (f_eta (sG t1)) 0 == 0 /\
  nth 0 (f_eta (sG s1)) 0 == 1 # 2 /\ nth 3 (f_eta (sG s1)) 0 == 1 # 2.
Proof. exact p_C112_ends_refuted. Qed.
Print Assumptions C112_ends_refuted.
