(** * Momentum and uniform motion around the cylinder: C92.
    Statements only; the proofs are in ThmSpin.v. *)
From Coq Require Import ZArith Reals List Bool Arith Lra Lia.
From Verif Require Import State NumR Spec SpecLaws SpecStep SpecScheme SpecRing LibList LibR ModelGrid ModelConstit ModelParticle ModelMPList
  ModelIntegr ModelMain ProofsGrid ProofsMap ProofsP2G ProofsWalls ProofsLaws ProofsInOut ProofsHist Concrete
  ThmMapping ThmWalls ThmLaws ThmInOut ThmHist ProofsStep ProofsPoints ThmStep ThmBalance ThmEnergy ThmFall ThmGeo ProofsScheme ThmScheme
  ProofsRing ThmRing.
Import ListNotations.
From Verif Require Import ThmSpin.
Local Open Scope R_scope.

(** With cyclic_lr, a component of the momentum that no wall stops changes in a step by exactly what gravity gives. *)
Theorem C92_momentum : forall uf fill (s s' : state R) a, proper (pG (sP s)) -> grid_ok (pG (sP s)) (sG s) ->
  all_live (sL s) (fun _ p => in_dom (pG (sP s)) (px p)) -> ring_only (sP s) -> ends_agree (pG (sP s)) (sG s) -> no_rub (pB (sP s)) ->
  simple_laws (sL s) -> own_velocities (sL s) -> no_surface (sP s) (uf (sP s)) ->
  unwalled (sP s) (sG s) a -> 0 <= p_Mtol (sP s) -> rheavy (pG (sP s)) (p_Mtol (sP s)) (bodies (sL s)) ->
  time_march uf fill s = Ok s' ->
  psum (sL s') (fun ph p => pm p * comp a (velocity ph p)) = psum (sL s) (fun ph p => pm p * comp a (velocity ph p)) +
    p_dt (sP s) * damp_of (sP s) * Rsum (map (fun q => q_m q * comp a (if q_first q then gravity_of (uf (sP s)) else q_b q)) (bodies (sL s))).
Proof. exact p_C92_momentum. Qed.
Print Assumptions C92_momentum.

(** A stress-free body that moves uniformly around a cylinder without walls is, after any number of steps, still
    stress-free and uniform; its velocity is that of free fall, and every point is where free fall puts it, up to whole turns. *)
Theorem C92_spin : forall uf fill n (s s' : state R) tr tr' c g, rplain s -> (forall P, no_surface (sP s) (uf P)) ->
  0 <= p_Mtol (sP s) -> (forall a, unwalled (sP s) (sG s) a) -> (forall P, gravity_of (uf P) = g) ->
  (forall q, In q (bodies (sL s)) -> q_v q = c /\ q_s q = m0 /\ q_p q = 0 /\ (q_first q = false -> q_b q = g)) ->
  (forall j s1 tr1, (j < n)%nat -> after uf fill j s tr = Ok (s1, tr1) ->
     all_live (sL s1) (fun _ p => in_dom (pG (sP s)) (px p)) /\ rheavy (pG (sP s)) (p_Mtol (sP s)) (bodies (sL s1))) ->
  after uf fill n s tr = Ok (s', tr') ->
  let dt := p_dt (sP s) in let d := damp_of (sP s) in
  Forall2 (fun q q' =>
    q' = mkMp (q_mat q) (q_m q) (q_V q) (q_x q') (v3 (fun a => comp a c + INR n * dt * (d * comp a g))) m0 0 (q_b q') (q_first q) /\
    exists z : Z, forall a, comp a (q_x q') = comp a (q_x q) + INR n * dt * comp a c + INR n * (INR n + 1) / 2 * (dt * dt) * (d * comp a g)
      + match a with AX => IZR z * girth (pG (sP s)) | _ => 0 end)
    (bodies (sL s)) (bodies (sL s')).
Proof. exact p_C92_spin. Qed.
Print Assumptions C92_spin.

(** Two steps, the first across the seam. *)
Example C91_run_example : forall fill, exists s : state R, rplain s /\ (forall P, no_surface (sP s) (sp_loads P)) /\
  (forall j, (j < 2)%nat -> Forall (fun q => in_dom (pG (sP s)) (q_x q) /\ (p_check (sP s) = true -> vz (q_x q) = 0))
                                  (r_run sp_loads j (sP s) (sG s) (bodies (sL s)))) /\
  map (fun q => vx (q_x q)) (bodies (sL s)) = [59/20] /\
  map (fun q => vx (q_x q)) (r_run sp_loads 1 (sP s) (sG s) (bodies (sL s))) = [1/20] /\
  exists r, after sp_loads fill 2 s [] = Ok r.
Proof. exact x_C91_run. Qed.

Example C91_step_example : forall fill, exists s s' : state R, proper (pG (sP s)) /\ grid_ok (pG (sP s)) (sG s) /\
  all_live (sL s) (fun _ p => in_dom (pG (sP s)) (px p)) /\ ring_only (sP s) /\ ends_agree (pG (sP s)) (sG s) /\ no_rub (pB (sP s)) /\
  simple_laws (sL s) /\ own_velocities (sL s) /\ no_surface (sP s) (sp_loads (sP s)) /\ length (bodies (sL s)) = 1%nat /\
  time_march sp_loads fill s = Ok s'.
Proof. exact x_C91_step. Qed.

(** The same, with gravity along the slope. *)
Example C92_momentum_example : forall fill, exists s s' : state R, proper (pG (sP s)) /\ grid_ok (pG (sP s)) (sG s) /\
  all_live (sL s) (fun _ p => in_dom (pG (sP s)) (px p)) /\ ring_only (sP s) /\ ends_agree (pG (sP s)) (sG s) /\ no_rub (pB (sP s)) /\
  simple_laws (sL s) /\ own_velocities (sL s) /\ no_surface (sP s) (fall_loads (sP s)) /\
  unwalled (sP s) (sG s) AX /\ 0 <= p_Mtol (sP s) /\ rheavy (pG (sP s)) (p_Mtol (sP s)) (bodies (sL s)) /\
  psum (sL s) (fun ph p => pm p * comp AX (velocity ph p)) = 2 /\ time_march fall_loads fill s = Ok s'.
Proof. exact x_C92_momentum. Qed.

(** Two steps of the same body. *)
Example C92_spin_example : forall fill, exists (s s' : state R) tr', rplain s /\ (forall P, no_surface (sP s) (sp_loads P)) /\
  0 <= p_Mtol (sP s) /\ (forall a, unwalled (sP s) (sG s) a) /\ (forall P, gravity_of (sp_loads P) = v0) /\
  (forall q, In q (bodies (sL s)) -> q_v q = mkV3 1 0 0 /\ q_s q = m0 /\ q_p q = 0 /\ (q_first q = false -> q_b q = v0)) /\
  (forall j s1 tr1, (j < 2)%nat -> after sp_loads fill j s [] = Ok (s1, tr1) ->
     all_live (sL s1) (fun _ p => in_dom (pG (sP s)) (px p)) /\ rheavy (pG (sP s)) (p_Mtol (sP s)) (bodies (sL s1))) /\
  after sp_loads fill 2 s [] = Ok (s', tr') /\ length (bodies (sL s)) = 1%nat.
Proof. exact x_C92_spin. Qed.
