(** * The nodal mean grain size: C70, C71.
    Statements only; the proofs are in ThmGsd.v. *)
From Coq Require Import ZArith Reals List Bool Arith Lra Lia.
From Verif Require Import State NumR Spec LibList LibR ModelGrid ModelConstit ModelParticle ModelMPList
  ModelIntegr ModelNT SpecLaws ProofsGrid ProofsMap ProofsP2G ProofsStep Concrete ThmMapping ThmLaws ThmSeg.
Import ListNotations.
From Verif Require Import ThmGsd.
Local Open Scope R_scope.

(** When the points carry a size, get_nodal_gsd gives at every node heavier than
    the threshold the tent- and mass-weighted mean of the sizes. *)
Theorem C70_mean : forall (P : params R) seg_mp size sz L G G', proper (pG P) -> all_live L (fun _ p => located (pG P) p /\ size p = Some (sz p)) ->
  p_seg P || seg_mp = true -> length (gm G) = nodes (pG P) -> g_sbar G = repeat 0 (nodes (pG P)) ->
  get_nodal_gsd P seg_mp size L G = Ok G' ->
  forall k, (k < nodes (pG P))%nat -> nth k (g_sbar G') 0 =
    if Rlt_dec (p_Mtol P) (nth k (gm G) 0) then psum L (fun _ p => hat (pG P) (px p) k * pm p * sz p) / nth k (gm G) 0 else 0.
Proof. exact p_C70_mean. Qed.
Print Assumptions C70_mean.

(** Instance: C70_mean_example in PropsNTQ.v. *)

(** Hence, on the masses of the same points, it lies between the sizes. *)
Theorem C70_between : forall (P : params R) seg_mp size sz L G G' lo hi, proper (pG P) ->
  all_live L (fun _ p => located (pG P) p /\ size p = Some (sz p) /\ 0 <= pm p /\ lo <= sz p <= hi) ->
  p_seg P || seg_mp = true -> length (gm G) = nodes (pG P) -> g_sbar G = repeat 0 (nodes (pG P)) ->
  (forall k, (k < nodes (pG P))%nat -> nth k (gm G) 0 = psum L (fun _ p => hat (pG P) (px p) k * pm p)) -> 0 <= p_Mtol P ->
  get_nodal_gsd P seg_mp size L G = Ok G' ->
  forall k, (k < nodes (pG P))%nat -> p_Mtol P < nth k (gm G) 0 -> lo <= nth k (g_sbar G') 0 <= hi.
Proof. exact p_C70_between. Qed.
Print Assumptions C70_between.

(** Instance: C70_between_example in PropsCasesQ.v. *)

(** No class of the code gives a particle the attribute [size]: the function
    cannot finish once a point touches a node heavier than the threshold. *)
Theorem C70_size_refuted : forall (P : params R) seg_mp L G ph p k, proper (pG P) -> all_live L (fun _ p => located (pG P) p) ->
  length (gm G) = nodes (pG P) -> In ph L -> In p (live ph) -> (k < nodes (pG P))%nat ->
  cell_corner (pG P) (px p) k -> p_Mtol P < nth k (gm G) 0 ->
  forall G', get_nodal_gsd P seg_mp (fun _ => None) L G <> Ok G'.
Proof. exact p_C70_size_refuted. Qed.
Print Assumptions C70_size_refuted.

(** map_gsd_to_mp interpolates the nodal sizes. *)
Theorem C70_back : forall (P : params R) G p s, proper (pG P) -> located (pG P) p -> length (gm G) = nodes (pG P) -> length (g_sbar G) = nodes (pG P) ->
  map_gsd_to_mp P G p = Ok s ->
  s = fsum (nodes (pG P)) (fun k => hat (pG P) (px p) k * (if Rlt_dec (p_Mtol P) (nth k (gm G) 0) then nth k (g_sbar G) 0 else 0)).
Proof. exact p_C70_back. Qed.
Print Assumptions C70_back.

(** add_to_boundary marks exactly the four nodes of the cell. *)
Theorem C71_mask : forall (P : params R) G p mk, proper (pG P) -> located (pG P) p -> length (bv G) = nodes (pG P) ->
  add_to_boundary P G p = Ok mk -> length mk = nodes (pG P) /\
  forall k, (k < nodes (pG P))%nat -> (nth k mk false = true <-> cell_corner (pG P) (px p) k).
Proof. exact p_C71_mask. Qed.
Print Assumptions C71_mask.

(** normalise_phi_increment changes the total of no size class, as long as the
    clipped fractions of the class do not all vanish. *)
Theorem C72_total : forall (P : params R) G dphi k, (k < ns (pG P))%nat -> length (g_phi G) = length dphi ->
  Rsum (map (fun p => cut01 (nth k (fst p) 0 + nth k (snd p) 0)) (combine (g_phi G) dphi)) <> 0 ->
  Rsum (map (fun r => nth k r 0) (normalise_phi_increment P G dphi)) = Rsum (map (fun r => nth k r 0) dphi).
Proof. exact p_C72_total. Qed.
Print Assumptions C72_total.

(** Instance: C72_total_example in PropsNTQ.v. *)

Example C71_mask_example : exists (P : params R) G p mk, proper (pG P) /\ located (pG P) p /\ length (bv G) = nodes (pG P) /\ add_to_boundary P G p = Ok mk.
Proof. exact x_C71_mask. Qed.
