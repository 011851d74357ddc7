(** * The data files show the step that was just made: C115.
    Statements only; the proofs are in ThmSave.v. *)
From Coq Require Import ZArith Reals List Bool Arith Lra Lia FunctionalExtensionality.
From RecordUpdate Require Import RecordUpdate.
From Verif Require Import State NumR Spec SpecLaws SpecStep SpecScheme SpecLocal LibList LibR ModelGrid ModelConstit ModelParticle ModelMPList
  ModelIntegr ModelMain ModelSave ProofsGrid ProofsMap ProofsP2G ProofsWalls ProofsLaws ProofsInOut ProofsHist Concrete
  ThmMapping ThmWalls ThmLaws ThmInOut ThmHist ProofsStep ProofsPoints ThmStep ThmBalance ThmEnergy ThmFall ThmGeo ProofsRing ThmRing ThmSift ThmGrade ThmFrac ThmFill ProofsSave.
Import ListNotations.
From Verif Require Import ThmSave.
Local Open Scope R_scope.

(** The file of [save_density], written after a step with any options, has a row for every row of nodes from the bottom up
    and in each row a number for every node from left to right: the mass that the points, as they were at the start of the
    step, gave to the node, divided by the node's share of the volume. *)
Theorem C115_density : forall uf fill (s s' : state R) G0, proper (pG (sP s)) -> 0 < thickness (pG (sP s)) -> grid_ok (pG (sP s)) (sG s) ->
  grid_init (pG (sP s)) (pB (sP s)) = Ok G0 -> gV (sG s) = gV G0 ->
  all_live (sL s) (fun _ p => in_dom (pG (sP s)) (px p)) -> time_march uf fill s = Ok s' ->
  exists D, save_density (sP s') (sG s') = Ok D /\ gridlike (pG (sP s)) D /\
  forall i j, (i < nx (pG (sP s)))%nat -> (j < ny (pG (sP s)))%nat ->
    0 < share_of (pG (sP s)) (cyclic_lr (pB (sP s))) i j /\
    cell 0 D i j = gathered_mass (pG (sP s)) (cyclic_lr (pB (sP s))) (sL s) i j / share_of (pG (sP s)) (cyclic_lr (pB (sP s))) i j.
Proof. exact p_C115_density. Qed.
Print Assumptions C115_density.

(** Summed over the table, density times volume is the mass of all points; on joined ends the last column repeats the
    first and is left out. *)
Theorem C115_mass : forall uf fill (s s' : state R) G0 D, proper (pG (sP s)) -> 0 < thickness (pG (sP s)) -> grid_ok (pG (sP s)) (sG s) ->
  grid_init (pG (sP s)) (pB (sP s)) = Ok G0 -> gV (sG s) = gV G0 ->
  all_live (sL s) (fun _ p => in_dom (pG (sP s)) (px p)) -> time_march uf fill s = Ok s' -> save_density (sP s') (sG s') = Ok D ->
  let P := pG (sP s) in let ring := cyclic_lr (pB (sP s)) in
  fsum (ny P) (fun j => fsum (if ring then nx P - 1 else nx P)%nat (fun i => cell 0 D i j * share_of P ring i j)) = psum (sL s) (fun _ p => pm p).
Proof. exact p_C115_mass. Qed.
Print Assumptions C115_mass.

(** The files of [save_u] hold the velocities with which the points were moved in the step: a point that is not part of an
    intruder went where the saved values, weighted by the tent functions, carry it in one time step.  Nodes that hold no
    more than [M_tol] do not count. *)
Theorem C115_velocity : forall uf fill (s s' : state R), proper (pG (sP s)) -> grid_ok (pG (sP s)) (sG s) -> tight (sP s) ->
  (forall ph, In ph (sL s) -> s_law (ph_sol ph) <> Rigid) ->
  all_live (sL s) (fun _ p => in_dom (pG (sP s)) (px p)) -> time_march uf fill s = Ok s' ->
  let P := pG (sP s) in
  exists U V, save_u (sP s') (sG s') = Ok (U, V) /\ gridlike P U /\ gridlike P V /\
  let carry (D : list (list R)) x := fsum (ny P) (fun j => fsum (nx P) (fun i => hat P x (j * nx P + i) *
        (if Rlt_dec (p_Mtol (sP s)) (gathered_mass P false (sL s) i j) then cell 0 D i j else 0))) in
  Prel (fun _ p p' => vx (px p') = vx (px p) + p_dt (sP s) * carry U (px p) /\ vy (px p') = vy (px p) + p_dt (sP s) * carry V (px p)) (sL s) (sL s').
Proof. exact p_C115_velocity. Qed.
Print Assumptions C115_velocity.

(** The file of [save_s_bar] of a run with segregation on the grid holds at every node with mass the mean size of the
    grains around it, before the step sorted them: the mass-weighted mean over the points near the node.  It lies between
    the smallest and the largest size. *)
Theorem C115_sizes : forall uf fill (s s' : state R), proper (pG (sP s)) -> grid_ok (pG (sP s)) (sG s) -> p_seg (sP s) = true ->
  length (gs (pG (sP s))) = ns (pG (sP s)) ->
  all_live (sL s) (fun _ p => in_dom (pG (sP s)) (px p) /\ 0 < pm p /\ fractions (ns (pG (sP s))) (pphi p)) -> time_march uf fill s = Ok s' ->
  let P := pG (sP s) in
  exists D, save_s_bar (sP s') (sG s') = Ok D /\ gridlike P D /\
  forall i j, (i < nx P)%nat -> (j < ny P)%nat -> let w p := pm p * hat P (px p) (j * nx P + i) in let M := psum (sL s) (fun _ p => w p) in
    (0 < M -> cell 0 D i j = psum (sL s) (fun _ p => w p * mean_size P p) / M /\
              forall lo hi, Forall (fun z => lo <= z <= hi) (gs P) -> lo <= cell 0 D i j <= hi).
Proof. exact p_C115_sizes. Qed.
Print Assumptions C115_sizes.

(** Without segregation the file is zero everywhere, whatever the sizes of the grains. *)
Theorem C116_sizes_refuted : forall uf fill (s s' : state R), proper (pG (sP s)) -> grid_ok (pG (sP s)) (sG s) -> p_seg (sP s) = false ->
  all_live (sL s) (fun _ p => in_dom (pG (sP s)) (px p)) -> time_march uf fill s = Ok s' ->
  exists D, save_s_bar (sP s') (sG s') = Ok D /\ Forall (Forall (fun z => z = 0)) D.
Proof. exact p_C116_sizes_refuted. Qed.
Print Assumptions C116_sizes_refuted.

(** The file of [save_phi_MP] has a row for every point: its position, then its fractions.  Row [i] of phase [a] comes
    after the rows of the earlier phases. *)
Theorem C115_rows : forall L : list (phase R), (forall ph, In ph L -> (ph_n ph <= length (ph_pts ph))%nat) ->
  exists D, save_phi_MP L = Ok D /\ length D = before L (length L) /\
  forall a ph i p, nth_error L a = Some ph -> (i < ph_n ph)%nat -> nth_error (ph_pts ph) i = Some p ->
    nth_error D (before L a + i) = Some ([vx (px p); vy (px p)] ++ pphi p).
Proof. exact p_C115_rows. Qed.
Print Assumptions C115_rows.

Example C115_density_example : forall uf fill, exists (s s' : state R) G0, proper (pG (sP s)) /\ 0 < thickness (pG (sP s)) /\ grid_ok (pG (sP s)) (sG s) /\
  grid_init (pG (sP s)) (pB (sP s)) = Ok G0 /\ gV (sG s) = gV G0 /\
  all_live (sL s) (fun _ p => in_dom (pG (sP s)) (px p)) /\ time_march uf fill s = Ok s' /\ (length (concat (map live (sL s))) = 2)%nat.
Proof. exact x_C115_density. Qed.

Example C115_mass_example : forall uf fill, exists (s s' : state R) G0 D, proper (pG (sP s)) /\ 0 < thickness (pG (sP s)) /\ grid_ok (pG (sP s)) (sG s) /\
  grid_init (pG (sP s)) (pB (sP s)) = Ok G0 /\ gV (sG s) = gV G0 /\
  all_live (sL s) (fun _ p => in_dom (pG (sP s)) (px p)) /\ time_march uf fill s = Ok s' /\ save_density (sP s') (sG s') = Ok D /\
  psum (sL s) (fun _ p => pm p) = 4.
Proof. exact x_C115_mass. Qed.

Example C115_velocity_example : forall uf fill, exists (s s' : state R), proper (pG (sP s)) /\ grid_ok (pG (sP s)) (sG s) /\ tight (sP s) /\
  (forall ph, In ph (sL s) -> s_law (ph_sol ph) <> Rigid) /\
  all_live (sL s) (fun _ p => in_dom (pG (sP s)) (px p)) /\ time_march uf fill s = Ok s' /\ p_dt (sP s) <> 0 /\ (length (concat (map live (sL s))) = 2)%nat.
Proof. exact x_C115_velocity. Qed.

Example C115_sizes_example : forall uf fill, exists (s s' : state R), proper (pG (sP s)) /\ grid_ok (pG (sP s)) (sG s) /\ p_seg (sP s) = true /\
  length (gs (pG (sP s))) = ns (pG (sP s)) /\
  all_live (sL s) (fun _ p => in_dom (pG (sP s)) (px p) /\ 0 < pm p /\ fractions (ns (pG (sP s))) (pphi p)) /\ time_march uf fill s = Ok s' /\
  0 < psum (sL s) (fun _ p => pm p * hat (pG (sP s)) (px p) 0).
Proof. exact x_C115_sizes. Qed.

Example C116_sizes_refuted_example : forall uf fill, exists (s s' : state R), proper (pG (sP s)) /\ grid_ok (pG (sP s)) (sG s) /\ p_seg (sP s) = false /\ all_live (sL s) (fun _ p => in_dom (pG (sP s)) (px p) /\ mean_size (pG (sP s)) p = 3 / 2) /\ time_march uf fill s = Ok s' /\ (length (concat (map live (sL s))) = 2)%nat.
Proof. exact x_C116_sizes_refuted. Qed.

Example C115_rows_example : forall ph, In ph (ex_L Elastic ++ ex_L VonMises) -> (ph_n ph <= length (@ph_pts R ph))%nat /\ (ph_n ph = 2)%nat.
Proof. exact x_C115_rows. Qed.
