(** * Layers that start under their own weight stay at rest: C96
    Statements only; the proofs are in ThmRest.v. *)
From Coq Require Import ZArith Reals List Bool Arith Lra Lia.
From Verif Require Import State NumR Spec SpecLaws SpecStep SpecScheme SpecRing LibList LibR ModelGrid ModelInputs ModelConstit ModelParticle ModelMPList
  ModelIntegr ModelMain ProofsGrid ProofsMap ProofsP2G ProofsWalls ProofsLaws ProofsInOut ProofsHist Concrete
  ThmMapping ThmWalls ThmLaws ThmInOut ThmHist ProofsStep ProofsPoints ThmStep ThmBalance ThmEnergy ThmFall ThmGeo ProofsScheme ThmScheme
  ThmDensity ProofsRing ThmRing ProofsFill ThmFill ProofsRest.
Import ListNotations.
From Verif Require Import ThmRest.
Local Open Scope R_scope.

(** Between walls (a floor and two sides): a settled layer does not move at all,
    in any number of passes of the main loop - not only to the accuracy of the
    grid.  Rough walls hold it under any tilt, smooth walls on level ground. *)
Theorem C96_box : forall uf fill n (P : params R) (G : grid R) c rows So sv L tr, proper (pG P) -> grid_init (pG P) (pB P) = Ok G -> shut P ->
  settled P c rows So sv L -> quiet_run uf n P So ->
  has_bottom (pB P) = true -> has_left (pB P) = true -> has_right (pB P) = true ->
  roughness (pB P) = true \/ p_max_g P * sin (ld_theta (p_loads P)) = 0 ->
  exists s' tr', after uf fill n (mkState P G L) tr = Ok (s', tr') /\ bodies (sL s') = bodies L /\
    Forall (fun q => q_v q = mkV3 0 0 0 /\ inside (pG P) (q_x q) /\ vz (q_x q) = 0) (bodies (sL s')).
Proof. exact p_C96_box. Qed.
Print Assumptions C96_box.

(** On a domain with joined ends: a settled layer on a rough floor, or one that
    does not let it slip, stays where it is under any tilt; on a smooth one on
    level ground. *)
Theorem C96_ring : forall uf fill n (P : params R) (G : grid R) c rows So sv L tr, proper (pG P) -> grid_init (pG P) (pB P) = Ok G -> ring_only P ->
  settled P c rows So sv L -> quiet_run uf n P So ->
  has_bottom (pB P) = true -> has_left (pB P) = has_right (pB P) ->
  roughness (pB P) = true \/ no_slip_bottom (pB P) = true \/ p_max_g P * sin (ld_theta (p_loads P)) = 0 ->
  exists s' tr', after uf fill n (mkState P G L) tr = Ok (s', tr') /\ bodies (sL s') = bodies L /\
    Forall (fun q => q_v q = mkV3 0 0 0 /\ inside (pG P) (q_x q) /\ vz (q_x q) = 0) (bodies (sL s')).
Proof. exact p_C96_ring. Qed.
Print Assumptions C96_ring.

(** The scripts that set full gravity, or leave the loads alone, keep them those
    of the start. *)
Theorem C96_loads : forall (P : params R), ld_g (p_loads P) = p_max_g P ->
  (forall n, body (constant_forces (clock constant_forces n P)) = body (p_loads P)) /\
  (forall n, body (no_forces (clock no_forces n P)) = body (p_loads P)).
Proof. exact p_C96_loads. Qed.
Print Assumptions C96_loads.

(** With other loads than those of the start the layer is thrown: if the stress
    carries the gravity [p_max_g] and the script says [g], every point gets the
    velocity [dt (g - p_max_g)] in the first pass (times 7/10 with P.damping), as
    far as the nodes around it are heavy and not walls. *)
Theorem C96_thrown : forall uf fill (P : params R) (G : grid R) c rows So sv L tr, proper (pG P) -> grid_init (pG P) (pB P) = Ok G -> shut P ->
  settled P c rows So sv L -> quiet_run uf 0 P So -> has_bottom (pB P) = true -> has_left (pB P) = true -> has_right (pB P) = true ->
  ld_theta (p_loads P) = 0 -> ld_theta (uf P) = 0 -> 0 <= p_Mtol P ->
  exists s' tr', after uf fill 1 (mkState P G L) tr = Ok (s', tr') /\
    Forall2 (fun q q' => vx (q_v q') = 0 /\ vy (q_v q') = p_dt P * ((if p_damping P then 7/10 else 1) * (ld_g (uf P) - p_max_g P)) *
      fsum (nodes (pG P)) (fun k => hat (pG P) (q_x q) k *
        (if Rlt_dec (p_Mtol P) (Rsum (map (fun r => q_m r * hat (pG P) (q_x r) k) (bodies L))) then passes (roughness (pB P)) G AY k else 0)))
      (bodies L) (bodies (sL s')).
Proof. exact p_C96_thrown. Qed.
Print Assumptions C96_thrown.

Example C96_box_example : forall n, exists (P : params R) (G : grid R) L, proper (pG P) /\ grid_init (pG P) (pB P) = Ok G /\ shut P /\
  settled P 3 2 (fill_solid (1/9)) v0 L /\ quiet_run constant_forces n P (fill_solid (1/9)) /\
  has_bottom (pB P) = true /\ has_left (pB P) = true /\ has_right (pB P) = true /\ p_max_g P * sin (ld_theta (p_loads P)) = 0 /\
  p_max_g P < 0 /\ bodies L <> [].
Proof. exact x_C96_box. Qed.

(** Tilted by 45 degrees. *)
Example C96_ring_example : forall n, exists (P : params R) (G : grid R) L, proper (pG P) /\ grid_init (pG P) (pB P) = Ok G /\ ring_only P /\
  settled P 3 2 (fill_solid (1/9)) v0 L /\ quiet_run no_forces n P (fill_solid (1/9)) /\
  has_bottom (pB P) = true /\ has_left (pB P) = has_right (pB P) /\ roughness (pB P) = true /\ p_max_g P * sin (ld_theta (p_loads P)) <> 0.
Proof. exact x_C96_ring. Qed.

(** The ramp of dam_break.py starts from no gravity: the layer is thrown upwards. *)
Example C96_thrown_example : exists (P : params R) (G : grid R) L, proper (pG P) /\ grid_init (pG P) (pB P) = Ok G /\ shut P /\
  settled P 3 2 (fill_solid (1/9)) v0 L /\ quiet_run (ramp_forces 1) 0 P (fill_solid (1/9)) /\
  has_bottom (pB P) = true /\ has_left (pB P) = true /\ has_right (pB P) = true /\ ld_theta (p_loads P) = 0 /\ ld_theta (ramp_forces 1 P) = 0 /\ 0 <= p_Mtol P /\
  ld_g (ramp_forces 1 P) - p_max_g P = 1.
Proof. exact x_C96_thrown. Qed.
