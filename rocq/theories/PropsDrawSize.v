(** * Pictures of the grain sizes and of the points: C119, C121, C122.
    Statements only; the proofs are in ThmDrawSize.v. *)
From Coq Require Import ZArith Reals List Bool Arith Lra Lia.
From RecordUpdate Require Import RecordUpdate.
From Verif Require Import State NumR Spec SpecLaws SpecStep LibList LibR ModelGrid ModelConstit ModelParticle ModelMPList
  ModelIntegr ModelMain ModelSave ModelDraw ProofsGrid ProofsMap ProofsP2G ProofsWalls ProofsLaws ProofsHist ProofsStep ProofsPoints Concrete
  ThmMapping ThmLaws ThmStep ThmSift ThmPk ThmGrade ThmFields ThmGeo ThmShown ThmFrac ProofsSave ThmSave ThmDraw.
Import ListNotations.
Local Existing Instance Num_R.
From Verif Require Import ThmDrawSize.
Local Open Scope R_scope.

(** The first picture shows the mean size and the picture of each size its share, at the nodes that are not lighter than
    [M_tol]; the other nodes are blank in all of them. *)
Theorem C122_shown : forall (P : params R) (G : grid R) D Ds, draw_gsd_grid P G = Ok (D, Ds) ->
  pictured P (gm G) (g_sbar G) D /\ length Ds = ns (pG P) /\
  forall c, (c < ns (pG P))%nat -> pictured P (gm G) (map (fun r => nth c r 0) (g_phi G)) (nth c Ds []).
Proof. exact p_C122_shown. Qed.
Print Assumptions C122_shown.

(** After a step with segregation, when the points hold shares of sizes that add up to one and the ends are not joined: at
    every node that is drawn the pictures of the sizes show shares between zero and one that add up to one, and the picture
    of the mean shows a size between the smallest and the largest. *)
Theorem C122_shares : forall uf fill (s s' : state R) D Ds, proper (pG (sP s)) -> grid_ok (pG (sP s)) (sG s) ->
  p_seg (sP s) = true -> cyclic_lr (pB (sP s)) = false -> 0 < p_Mtol (sP s) -> length (gs (pG (sP s))) = ns (pG (sP s)) ->
  all_live (sL s) (fun _ p => in_dom (pG (sP s)) (px p) /\ 0 < pm p /\ fractions (ns (pG (sP s))) (pphi p)) ->
  time_march uf fill s = Ok s' -> draw_gsd_grid (sP s') (sG s') = Ok (D, Ds) ->
  forall i j, (i < nx (pG (sP s)))%nat -> (j < ny (pG (sP s)))%nat ->
  (forall z, cell None D i j = Some z -> forall lo hi, Forall (fun x => lo <= x <= hi) (gs (pG (sP s))) -> lo <= z <= hi) /\
  ((cell None D i j = None /\ Forall (fun D' => cell None D' i j = None) Ds) \/
   exists f, fractions (ns (pG (sP s))) f /\ map (fun D' => cell None D' i j) Ds = map Some f).
Proof. exact p_C122_shares. Qed.
Print Assumptions C122_shares.

(** The pictures can be drawn after any such step. *)
Theorem C122_draws : forall uf fill (s s' : state R), proper (pG (sP s)) -> grid_ok (pG (sP s)) (sG s) ->
  p_seg (sP s) = true -> cyclic_lr (pB (sP s)) = false -> length (gs (pG (sP s))) = ns (pG (sP s)) ->
  all_live (sL s) (fun _ p => in_dom (pG (sP s)) (px p) /\ 0 < pm p /\ fractions (ns (pG (sP s))) (pphi p)) ->
  time_march uf fill s = Ok s' -> exists D Ds, draw_gsd_grid (sP s') (sG s') = Ok (D, Ds).
Proof. exact p_C122_draws. Qed.
Print Assumptions C122_draws.

Example C122_draws_example : forall uf fill, exists (s s' : state R) D Ds, proper (pG (sP s)) /\ grid_ok (pG (sP s)) (sG s) /\ 0 < p_Mtol (sP s) /\
  p_seg (sP s) = true /\ cyclic_lr (pB (sP s)) = false /\ length (gs (pG (sP s))) = ns (pG (sP s)) /\
  all_live (sL s) (fun _ p => in_dom (pG (sP s)) (px p) /\ 0 < pm p /\ fractions (ns (pG (sP s))) (pphi p)) /\
  time_march uf fill s = Ok s' /\ draw_gsd_grid (sP s') (sG s') = Ok (D, Ds) /\ length Ds = 2%nat.
Proof. exact x_C122_draws. Qed.

(** A coloured place for every live point of every phase that is not rigid, in order, at the point. *)
Theorem C121_places : forall (P : params R) (L : list (phase R)),
  let shown := fix sel (L : list (phase R)) := match L with
    | [] => []
    | ph :: L' => match s_law (ph_sol ph) with Rigid => sel L' | _ => ph :: sel L' end end in
  Forall2 (fun ph pic => Forall2 (fun p c => c = (vx (px p), vy (px p), pgammadot p / p_dt P)) (live ph) pic) (shown L) (draw_gamma_dot P L).
Proof. exact p_C121_places. Qed.
Print Assumptions C121_places.

Example C121_places_example : draw_gamma_dot (ex_params (T := R) ex_bounds) [mkPhase (ex_solid Rigid) 1 v0 [ex_p1]; mkPhase (ex_solid Elastic) 1 v0 [ex_p1; ex_p2]] <> [[]].
Proof. exact x_C121_places. Qed.

(** The line in the first picture of the viscous laws and the flow laws: for every row of nodes the velocity to the right of
    the node in the middle column, against its height. *)
Theorem C119_profile : forall P B (G0 G : grid R), proper P -> grid_init P B = Ok G0 -> length (gq G) = nodes P -> length (gm G) = nodes P ->
  length (profile P G) = ny P /\ forall j, (j < ny P)%nat -> let k := (j * nx P + Nat.div (nx P) 2)%nat in
  nth j (profile P G) (0, 0) = (vx (nth k (gq G) v0) / nth k (gm G) 0, node_y P k) /\ node_x P k = x_m P + INR (Nat.div (nx P) 2) * cell_w P.
Proof. exact p_C119_profile. Qed.
Print Assumptions C119_profile.

Example C119_profile_example : exists (G0 G : grid R), grid_init (T := R) ex_gridp ex_box = Ok G0 /\ proper ex_gridp /\
  length (gq G) = nodes ex_gridp /\ length (gm G) = nodes ex_gridp /\ 0 < nth 2 (gm G) 0.
Proof. exact x_C119_profile. Qed.
