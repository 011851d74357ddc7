(** * Grain size fractions on the nodes and on the particles
    Statements only; the proofs are in ThmFrac.v. *)
From Coq Require Import ZArith List Bool Arith Lia Reals Lra.
From Verif Require Import State NumX NumR LibR LibList Spec ModelGrid ModelConstit ModelParticle ModelMPList ProofsGrid ProofsMap ProofsP2G ThmMapping Concrete.
Import ListNotations.
From Verif Require Import ThmFrac.
Local Open Scope R_scope.

(** Fractions of the points of a phase are averaged with the masses that the
    points give to the node. *)
Theorem C36_nodal_fractions : forall P L G G', proper (pG P) -> p_seg P = true -> length (gs (pG P)) = ns (pG P) ->
  all_live L (fun _ p => located (pG P) p /\ 0 < pm p /\ fractions (ns (pG P)) (pphi p)) ->
  p2g_all P L (wipe P G) = Ok G' -> forall k, (k < nodes (pG P))%nat ->
  (0 < nth k (gm G') 0 ->
     fractions (ns (pG P)) (nth k (g_phi G') []) /\
     (forall j, nth j (nth k (g_phi G') []) 0 * nth k (gm G') 0 = psum L (fun _ p => pm p * hat (pG P) (px p) k * nth j (pphi p) 0)) /\
     forall lo hi, Forall (fun s => lo <= s <= hi) (gs (pG P)) -> lo <= nth k (g_sbar G') 0 <= hi) /\
  (nth k (gm G') 0 <= 0 -> nth k (gm G') 0 = 0 /\ forall j, nth j (nth k (g_phim G') []) 0 = 0).
Proof. exact p_C36_nodal_fractions. Qed.
Print Assumptions C36_nodal_fractions.

(** At nodes without mass the division gives NaN, which is replaced by zero. *)
Theorem C36_massless : forall row : list (X R), Forall (fun a => a = Fin 0) row ->
  map nan0 (map (fun a => ndiv (T := X R) a (Fin 0)) row) = repeat (Fin 0) (length row).
Proof. exact p_C36_massless. Qed.
Print Assumptions C36_massless.

(** Instance: C36_massless_example in PropsCases.v. *)

Example C36_nodal_fractions_example : exists P G G', p_seg P = true /\ length (gs (pG P)) = ns (pG P) /\
  all_live (map (fun ph => ph <| ph_pts := map (locate (pG P)) (ph_pts ph) |>) (ex_L Elastic))
    (fun _ p => located (pG P) p /\ 0 < pm p /\ fractions (ns (pG P)) (pphi p)) /\
  p2g_all P (map (fun ph => ph <| ph_pts := map (locate (pG P)) (ph_pts ph) |>) (ex_L Elastic)) (wipe P G) = Ok G' /\
  0 < nth 0 (gm G') 0.
Proof. exact x_C36_nodal_fractions. Qed.

(** Valid fractions are left alone. *)
Theorem C41_valid : forall n (l : list R), fractions n l -> normalise l = l.
Proof. exact p_C41_valid. Qed.
Print Assumptions C41_valid.

(** Instance: C41_valid_example in PropsInst.v. *)

(** After [move_grainsize_on_grid] with [normalise_phi] every point that has some
    positive fraction once the increments are added has valid fractions. *)
Theorem C41_normalised : forall P G L L', proper (pG P) -> p_norm P = true -> length (gm G) = nodes (pG P) -> length (g_dphi G) = nodes (pG P) ->
  all_live L (fun _ p => located (pG P) p) -> move_grainsize P G L = Ok L' ->
  Lrel (fun _ p p' => exists f, incremented P G p f /\ (Exists (fun a => 0 < a) f -> fractions (length (pphi p)) (pphi p')) /\
                      (forall n, fractions n f -> pphi p' = f)) L L'.
Proof. exact p_C41_normalised. Qed.
Print Assumptions C41_normalised.

(** Without [normalise_phi] the increments are added and nothing is corrected. *)
Theorem C41_plain : forall P G L L', proper (pG P) -> p_norm P = false -> length (gm G) = nodes (pG P) -> length (g_dphi G) = nodes (pG P) ->
  all_live L (fun _ p => located (pG P) p) -> move_grainsize P G L = Ok L' -> Lrel (fun _ p p' => incremented P G p (pphi p')) L L'.
Proof. exact p_C41_plain. Qed.
Print Assumptions C41_plain.

(** Instance: C41_plain_example in PropsCasesStep.v. *)

(** Without a positive fraction the division is 0/0. *)
Theorem C41_none_refuted : forall l : list R, l <> [] -> Forall (fun a => a <= 0) l ->
  normalise (T := X R) (map Fin l) = repeat NaN (length l).
Proof. exact p_C41_none_refuted. Qed.
Print Assumptions C41_none_refuted.

Example C41_normalised_example : Exists (fun a => 0 < a) [-1/10; 1/2; 3/2] /\ normalise [-1/10; 1/2; 3/2] = [0; 1/3; 2/3] /\ fractions 3 [0; 1/3; 2/3].
Proof. exact x_C41_normalised. Qed.
