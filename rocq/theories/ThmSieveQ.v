(** * Segregation does not keep the total mass of a size class: C111. *)
From Coq Require Import ZArith QArith Qabs List Bool Arith Lia.
From RecordUpdate Require Import RecordUpdate.
From Verif Require Import State NumQ ModelGrid ModelMain Concrete.
Import ListNotations.
Local Open Scope Q_scope.

(** Six points in the middles of the six cells, the left ones all of the second class, the others half and half, under
    the same pressure, moving up faster to the right; they do not diffuse. *)
Definition sieve_point (x y v a : Q) : particle Q := ex_particle x y (mkV3 0 v 0) (mscale 2 eye) <| pphi := [a; 1 - a] |>.
Definition sieve_state (G : grid Q) : state Q :=
  mkState (ex_params ex_bounds <| p_dt := 1 # 100 |> <| p_seg := true |> <| p_c := Some 1 |> <| p_l := Some 0 |>) G
    [mkPhase (ex_solid Elastic) 6 v0
      [sieve_point (1#2) (1#2) 0 0; sieve_point (3#2) (1#2) 1 (1#2); sieve_point (5#2) (1#2) 4 (1#2);
       sieve_point (1#2) (3#2) 0 0; sieve_point (3#2) (3#2) 1 (1#2); sieve_point (5#2) (3#2) 4 (1#2)]].
Definition class_total (i : nat) (s : state Q) : Q :=
  fold_right Qplus 0 (flat_map (fun ph => map (fun p => pm p * nth i (pphi p) 0) (firstn (ph_n ph) (ph_pts ph))) (sL s)).

(** The claim is that segregation keeps the total mass of every size class.  The increments along a line of nodes sum
    to zero, but the nodes weigh differently, and the mass of the first class changes, while no point enters, leaves or
    changes its mass. *)
Lemma p_C111_mass_refuted : exists (G : grid Q) s1,
  grid_init (T := Q) ex_gridp ex_bounds = Ok G /\
  time_march (fun _ => mkLoads 0 0 0 0) (fun _ l => l) (sieve_state G) = Ok s1 /\
  (forall k, (k < 12)%nat -> p_Mtol (sP (sieve_state G)) < nth k (gm (sG s1)) 0) /\
  map (fun ph => map pm (ph_pts ph)) (sL s1) = map (fun ph => map pm (ph_pts ph)) (sL (sieve_state G)) /\
  class_total 0 (sieve_state G) == 4 /\ ~ class_total 0 s1 == 4.
Proof.
  destruct (grid_init (T := Q) ex_gridp ex_bounds) as [G|] eqn:EG; [|vm_compute in EG; discriminate].
  exists G. vm_compute in EG. injection EG as EG.
  destruct (time_march (T := Q) (fun _ => mkLoads 0 0 0 0) (fun _ l => l) (sieve_state G)) as [s1|] eqn:E1;
    rewrite <- EG in E1; vm_compute in E1; [|discriminate]. injection E1 as E1.
  exists s1. split; [reflexivity|]. split; [first [reflexivity|rewrite <- EG, <- E1; vm_compute; reflexivity]|].
  rewrite <- E1, <- EG. split.
  - intros k Hk. do 12 (destruct k as [|k]; [vm_compute; reflexivity|]). lia.
  - split; [vm_compute; reflexivity|]. split; [vm_compute; reflexivity|]. intros X. vm_compute in X. discriminate.
Qed.
