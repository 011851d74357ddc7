(** * A small shift of a point: C147.
    Statements only; the proofs are in ThmJump.v. *)
From Coq Require Import ZArith Reals List Bool Arith Lra Lia.
From RecordUpdate Require Import RecordUpdate.
From Verif Require Import State NumR Spec SpecLaws SpecStep SpecScheme SpecView LibList LibR ModelGrid ModelConstit ModelParticle ModelMPList
  ModelIntegr ModelMain ProofsGrid ProofsMap ProofsP2G ProofsWalls ProofsLaws ProofsInOut ProofsHist Concrete
  ThmMapping ThmWalls ThmLaws ThmInOut ThmHist ProofsStep ProofsPoints ThmStep ThmBalance ThmEnergy ThmFall ThmGeo ProofsScheme ProofsView ThmScheme ThmView ThmSpin ThmAngular ThmBeat ThmObserver ThmSilent ThmCells ThmMerge.
Import ListNotations.
From Verif Require Import ThmJump.
Local Open Scope R_scope.

(** The mass that a node gets changes by at most [eps (1/dx + 1/dy)] times the mass of
    the body, when every point is moved by at most [eps] along each axis. *)
Theorem C147_mass : forall P G H L L1 L2 G' M1 M2 H' (f : particle R -> V3 R) eps,
  proper (pG P) -> grid_ok (pG P) G -> grid_ok (pG P) H -> all_live L (fun _ p => in_dom (pG P) (px p)) -> all_live (put_at f L) (fun _ p => in_dom (pG P) (px p)) ->
  ref_nodes P (wipe P G) L = Ok L1 -> basis_all (wipe P G) L1 = Ok L2 -> p2g_all P L2 (wipe P G) = Ok G' ->
  ref_nodes P (wipe P H) (put_at f L) = Ok M1 -> basis_all (wipe P H) M1 = Ok M2 -> p2g_all P M2 (wipe P H) = Ok H' ->
  all_live L (fun _ p => 0 <= pm p /\ Rabs (vx (px p) - vx (f p)) <= eps /\ Rabs (vy (px p) - vy (f p)) <= eps) ->
  forall k, (k < nodes (pG P))%nat -> Rabs (nth k (gm G') 0 - nth k (gm H') 0) <= eps * (/ cell_w (pG P) + / cell_h (pG P)) * psum L (fun _ p => pm p).
Proof. exact p_C147_mass. Qed.
Print Assumptions C147_mass.

(** A stressed point at rest, on a column of nodes or next to it: a shift as small as one
    likes turns the velocity round that it gets in a step. *)
Theorem C147_jump_refuted : forall fill t eps, t <> 0 -> 0 < eps < 1/1000 -> exists (s u s' u' : state R) tr tr', plain s /\ plain u /\ sP u = sP s /\ sG u = sG s /\ wall_free (bv (sG s)) (bh (sG s)) /\
  Forall (fun q => in_dom (pG (sP s)) (q_x q)) (bodies (sL s)) /\ Forall (fun q => in_dom (pG (sP u)) (q_x q)) (bodies (sL u)) /\
  bodies (sL s) = map (slid eps) (bodies (sL u)) /\ after calm fill 1 s [] = Ok (s', tr) /\ after calm fill 1 u [] = Ok (u', tr') /\
  map q_v (bodies (sL s')) = [mkV3 (1/10 * t / 2) 0 0] /\ map q_v (bodies (sL u')) = [mkV3 (- (1/10 * t / 2)) 0 0].
Proof. exact p_C147_jump_refuted. Qed.
Print Assumptions C147_jump_refuted.

(** The point on the column of nodes, moved by a tenth of a cell. *)
Example C147_mass_example : exists P G L L1 L2 G' M1 M2 H' (f : particle R -> V3 R) eps,
  proper (pG P) /\ grid_ok (pG P) G /\ all_live L (fun _ p => in_dom (pG P) (px p)) /\ all_live (put_at f L) (fun _ p => in_dom (pG P) (px p)) /\
  ref_nodes P (wipe P G) L = Ok L1 /\ basis_all (wipe P G) L1 = Ok L2 /\ p2g_all P L2 (wipe P G) = Ok G' /\
  ref_nodes P (wipe P G) (put_at f L) = Ok M1 /\ basis_all (wipe P G) M1 = Ok M2 /\ p2g_all P M2 (wipe P G) = Ok H' /\
  all_live L (fun _ p => 0 <= pm p /\ Rabs (vx (px p) - vx (f p)) <= eps /\ Rabs (vy (px p) - vy (f p)) <= eps) /\ 0 < eps /\ psum L (fun _ p => pm p) = 2.
Proof. exact x_C147_mass. Qed.
