(** * A run with a dynamic time step that never ends: C117. *)
From Coq Require Import List Bool Arith ZArith Lia.
From Coq Require Import Floats.SpecFloat.
From RecordUpdate Require Import RecordUpdate.
From Verif Require Import State NumF NumF0 ModelGrid ModelParticle ModelMPList ModelMain Concrete.
Import ListNotations.
Local Open Scope nat_scope.

Definition fr (a b : Z) : binary64 := (nofZ a / nofZ b)%num.
(** A floor and no other wall. *)
Definition floor_only : bounds binary64 :=
  mkBounds false false false None false false false true false false false
           false false false false false false false false false.
(** An elastic point under stress that slides on the floor, exactly at height zero; gravity, a dynamic time step, a final
    time of one. *)
Definition slide_params : params binary64 := ex_params floor_only <| p_dynamic := true |> <| p_dt := fr 1 8 |>.
Definition slide_point : particle binary64 := ex_particle (fr 1 2) n0 (mkV3 n1 n0 n0) (mkM3 n1 n1 n0 n1 n1 n0 n0 n0 n0).
Definition slide_L : list (phase binary64) := [mkPhase (ex_solid Elastic) 1 v0 [slide_point]].
Definition falls (_ : params binary64) : loads binary64 := mkLoads n1 n0 n0 n0.
Definition keep (_ : list bool) (l : list binary64) := l.
Definition slide (G : grid binary64) : state binary64 := mkState slide_params G slide_L.

(** Two passes from the start. *)
Definition two : res (state binary64) :=
  G <- grid_init ex_gridp floor_only ;; '(s, _) <- pass falls keep (slide G) [EInitial] ;; '(s, _) <- pass falls keep s [] ;; Ok s.
(** The state after them, and its parts. *)
Definition rest_of (r : res (state binary64)) : state binary64 :=
  match r with Ok s => s | Err _ => mkState slide_params (mkGrid n0 n0 [] [] [] [] [] [] [] [] [] [] [] [] [] [] [] [] [] [] [] [] [] [] [] [] [] [] [] [] [] [] [] []) [] end.
Definition stuck : state binary64 := Eval vm_compute in rest_of two.
Definition at_step (z : Z) : state binary64 := stuck <| sP := sP stuck <| p_tstep := z |> |>.

Lemma stuck_pass z tr : exists tr', pass falls keep (at_step z) tr = Ok (at_step (z + 1), tr').
Proof. eexists. vm_compute. reflexivity. Qed.
Lemma stuck_time z : (p_t (sP (at_step z)) <=? p_tf (sP (at_step z)))%num = true.
Proof. reflexivity. Qed.
Lemma stuck_march fuel : forall z tr, march falls keep fuel (at_step z) tr = None.
Proof.
  induction fuel as [|fuel IH]; intros z tr; cbn [march]; rewrite stuck_time; [reflexivity|].
  destruct (stuck_pass z tr) as [tr' ->]. apply IH.
Qed.

(** A run with a dynamic time step ends: false.  Nodes in reach of a point that lies exactly on a line of nodes get a part of
    its internal force but no mass.  Their velocity is infinite, [nan_to_num] makes it the largest number, and the next time
    step is so small that it changes neither the clock nor the point.  Here it is the floor that keeps the point on the line. *)
Lemma p_C117_ends_refuted : exists G, grid_init ex_gridp floor_only = Ok G /\
  (forall fuel, main_loop falls keep fuel (slide G) = None) /\
  p_dynamic (sP (slide G)) = true /\ (n0 <? p_tf (sP (slide G)))%num = true.
Proof.
  destruct (grid_init ex_gridp floor_only) as [G|] eqn:EG; [|vm_compute in EG; discriminate].
  exists G. split; [reflexivity|]. split; [|split; reflexivity].
  vm_compute in EG. injection EG as <-.
  intros fuel. unfold main_loop. cut (march falls keep fuel (slide (match grid_init ex_gridp floor_only with Ok G => G | Err _ => sG stuck end)) [EInitial] = None).
  { intros X. vm_compute (grid_init ex_gridp floor_only) in X. cbv iota in X. rewrite X. reflexivity. }
  set (G := match grid_init ex_gridp floor_only with Ok G => G | Err _ => _ end).
  assert (F : exists s1 tr1 tr2, pass falls keep (slide G) [EInitial] = Ok (s1, tr1) /\ (p_t (sP s1) <=? p_tf (sP s1))%num = true /\
    pass falls keep s1 tr1 = Ok (at_step 2, tr2)).
  { eexists. eexists. eexists. split; [vm_compute; reflexivity|]. split; [vm_compute; reflexivity|]. vm_compute. reflexivity. }
  destruct F as (s1 & tr1 & tr2 & F1 & F2 & F3).
  assert (F0 : (p_t (sP (slide G)) <=? p_tf (sP (slide G)))%num = true) by (vm_compute; reflexivity).
  destruct fuel as [|[|fuel]]; cbn [march]; rewrite F0; [reflexivity| |]; rewrite F1, F2; [reflexivity|].
  rewrite F3. apply stuck_march.
Qed.
