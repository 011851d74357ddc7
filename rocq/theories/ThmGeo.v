(** * The mesh during a run: C82. *)
From Coq Require Import ZArith QArith List Bool Arith Lia.
From Verif Require Import State NumQ PyBase LibList ModelGrid ModelConstit ModelParticle ModelMPList ModelIntegr ModelMain ProofsLaws SpecStep ProofsHist Concrete.
Import ListNotations.
Local Open Scope bool_scope.

Lemma okg {A} (x y : A) : Ok x = Ok y -> x = y.
Proof. intros E. injection E as E. exact E. Qed.
Lemma okgp {A B} (x x1 : A) (y y1 : B) : Ok (x, y) = Ok (x1, y1) -> x = x1 /\ y = y1.
Proof. intros E. injection E as E E'. split; assumption. Qed.
Section Inv.
  Context {T : Type} {N : Num T}.
  Lemma foldM_inv {S A} (I : S -> Prop) (f : S -> A -> res S) l : (forall s x s', I s -> f s x = Ok s' -> I s') ->
    forall s s', I s -> foldM f s l = Ok s' -> I s'.
  Proof.
    intros HF. induction l as [|x l IH]; cbn [foldM]; intros s s' HI E; [injection E as <-; exact HI|].
    destruct (f s x) as [s1|] eqn:E1; [|discriminate E]. eapply IH; [|exact E]. eapply HF; eauto.
  Qed.
  Lemma four_inv {S} (I : S -> Prop) (P : params T) n (f : S -> nat -> Z -> res S) : (forall s r k s', I s -> f s r k = Ok s' -> I s') ->
    forall s s', I s -> four P n f s = Ok s' -> I s'.
  Proof. intros HF s s' HI E. unfold four in E. eapply foldM_inv; [|exact HI|exact E]. intros s1 r s2 H1 E1. exact (HF _ _ _ _ H1 E1). Qed.
  Lemma each_inv {S A} (I : S -> Prop) (f : A -> S -> res (A * S)) n : (forall x s x' s', I s -> f x s = Ok (x', s') -> I s') ->
    forall l s l' s', I s -> each n f l s = Ok (l', s') -> I s'.
  Proof.
    intros HF. induction n as [|n IH]; cbn [each]; intros l s l' s' HI E; [injection E as <- <-; exact HI|].
    destruct l as [|x l]; [discriminate E|]. destruct (f x s) as [[x1 s1]|] eqn:E1; [|discriminate E]. cbn [bind] in E.
    destruct (each n f l s1) as [[l1 s2]|] eqn:E2; [|discriminate E]. injection E as <- <-. eapply IH; [|exact E2]. eapply HF; eauto.
  Qed.
  Lemma forM_inv {S A} (I : S -> Prop) (f : nat -> A -> S -> res (A * S)) : (forall k x s x' s', I s -> f k x s = Ok (x', s') -> I s') ->
    forall l k s l' s', I s -> forM f k l s = Ok (l', s') -> I s'.
  Proof.
    intros HF. induction l as [|x l IH]; cbn [forM]; intros k s l' s' HI E; [injection E as <- <-; exact HI|].
    destruct (f k x s) as [[x1 s1]|] eqn:E1; [|discriminate E]. cbn [bind] in E.
    destruct (forM f _ l s1) as [[l1 s2]|] eqn:E2; [|discriminate E]. injection E as <- <-. eapply IH; [|exact E2]. eapply HF; eauto.
  Qed.
  Lemma points_inv {S} (I : S -> Prop) (f : nat -> phase T -> particle T -> S -> res (particle T * S)) :
    (forall k ph p s p' s', I s -> f k ph p s = Ok (p', s') -> I s') ->
    forall L s L' s', I s -> points f L s = Ok (L', s') -> I s'.
  Proof.
    intros HF L s L' s' HI E. eapply (forM_inv I); [|exact HI|exact E]. intros k ph s1 ph' s2 H1 E1. cbv beta in E1.
    destruct (each (ph_n ph) (f k ph) (ph_pts ph) s1) as [[l s3]|] eqn:E2; [|discriminate E1]. injection E1 as <- <-. eapply each_inv; [|exact H1|exact E2]. apply HF.
  Qed.
  Lemma points_r_inv {S} (I : S -> Prop) (f : nat -> phase T -> particle T -> S -> res S) :
    (forall k ph p s s', I s -> f k ph p s = Ok s' -> I s') -> forall L s s', I s -> points_r f L s = Ok s' -> I s'.
  Proof.
    intros HF L s s' HI E. unfold points_r in E. match type of E with bind ?x _ = _ => destruct x as [[L1 s1]|] eqn:E1; [|discriminate E] end. injection E as <-.
    eapply points_inv; [|exact HI|exact E1]. intros k ph p s2 p' s3 H2 E2. cbv beta in E2. destruct (f k ph p s2) eqn:E3; [|discriminate E2]. injection E2 as <- <-. eapply HF; eauto.
  Qed.
End Inv.

(** ** C82 *)
(** The mesh: spacings, node coordinates, node volumes, the nodes of the boundary and of the conveyor. *)
Definition mesh {T} (G : grid T) := (gdx G, gdy G, (gX G, gY G), (gV G, btot G, bconv G)).

(** The mesh with the nodes whose momentum is blocked along x and along y. *)
Definition full {T} (G : grid T) := (mesh G, (bv G, bh G)).
Lemma full_mesh {T} (G G' : grid T) : full G = full G' -> mesh G = mesh G'.
Proof. intros E. exact (f_equal fst E). Qed.

Section Mesh.
  Context {T : Type} {N : Num T}.
  Implicit Types (P : params T) (G : grid T).
  Ltac fin E := try discriminate E; repeat (apply okgp in E; destruct E as [? E]); try apply okg in E; subst; try reflexivity; try assumption.
  Lemma sset_mesh f l G : full (sset f l G) = full G.
  Proof. destruct f; reflexivity. Qed.
  Lemma law_mesh P S0 S k p G p' G' : apply_law P S0 S k p G = Ok (p', G') -> full G' = full G.
  Proof. intros E. apply law_effect in E. destruct E as (_ & F & _). unfold vis_frame in F. rewrite F. reflexivity. Qed.
  Lemma p2g_mesh P sv p G G' : p2g P sv p G = Ok G' -> full G' = full G.
  Proof.
    unfold p2g. apply (four_inv (fun G1 => full G1 = full G)); [|reflexivity]. intros G1 r k G2 H1 E.
    pbinds E. cbv zeta in E. destruct (p_seg P); [pbinds E|]; apply okg in E; subst; exact H1.
  Qed.
  Lemma p2g_all_mesh P L G G' : p2g_all P L G = Ok G' -> full G' = full G.
  Proof.
    unfold p2g_all. intros E. match type of E with bind ?x _ = _ => destruct x as [[L1 G1]|] eqn:E1; [|discriminate E] end. cbn [bind] in E. cbv zeta in E.
    assert (H1 : full G1 = full G).
    { eapply (forM_inv (fun G1 => full G1 = full G)); [|reflexivity|exact E1]. intros k ph G2 ph' G3 H2 E2. cbv beta in E2.
      match type of E2 with bind ?x _ = _ => destruct x as [[l G4]|] eqn:E3; [|discriminate E2] end. cbn [bind] in E2.  apply okgp in E2. destruct E2 as [_ <-].
      assert (H4 : full G4 = full G).
      { eapply (each_inv (fun G1 => full G1 = full G)); [|exact H2|exact E3]. intros p G5 p' G6 H5 E5. cbv beta in E5. pbinds E5. apply okgp in E5. destruct E5 as [_ <-].
        rewrite <- H5. eapply p2g_mesh; eauto. }
      destruct (p_seg P); exact H4. }
    apply okg in E. subst. destruct (p_seg P); exact H1.
  Qed.
  Lemma cyc_fields_mesh P fs G G' : cyc_fields P fs G = Ok G' -> full G' = full G.
  Proof.
    apply (foldM_inv (fun G1 => full G1 = full G)); [|reflexivity]. intros G1 f G2 H1 E. pbinds E. apply okg in E. subst. rewrite sset_mesh. exact H1.
  Qed.
  Lemma stress_mesh P L G L' G' : stress_strain P L G = Ok (L', G') -> full G' = full G.
  Proof.
    unfold stress_strain. intros E. destruct (sol0 L) as [S0|] eqn:E0; [|discriminate E]. cbn [bind] in E.
    match type of E with bind ?x _ = _ => destruct x as [[L1 G1]|] eqn:E1; [|discriminate E] end. cbn [bind] in E.
    assert (H1 : full G1 = full G).
    { eapply (points_inv (fun G1 => full G1 = full G)); [|reflexivity|exact E1]. intros k ph p G2 p' G3 H2 E2. cbv beta in E2.
      destruct (update_strain P G2 p) as [p1|]; [|discriminate E2]. cbn [bind] in E2. unfold update_stress in E2.
      destruct (apply_law _ _ _ _ _ _) as [[p2 G4]|] eqn:E4; [|discriminate E2]. cbn [bind] in E2. apply okgp in E2. destruct E2 as [_ <-].
      rewrite <- H2. eapply law_mesh; eauto. }
    destruct (cyclic_lr (pB P)).
    - destruct (cyc_fields P _ G1) as [G2|] eqn:E2; [|discriminate E]. cbn [bind] in E. apply okgp in E. destruct E as [_ <-]. rewrite <- H1. eapply cyc_fields_mesh; eauto.
    - apply okgp in E. destruct E as [_ <-]. exact H1.
  Qed.
  Lemma forces_mesh P L G G' : forces_all P L G = Ok G' -> full G' = full G.
  Proof.
    unfold forces_all. intros E. match type of E with bind ?x _ = _ => destruct x as [G1|] eqn:E1; [|discriminate E] end. cbn [bind] in E.
    assert (H1 : full G1 = full G).
    { eapply (points_r_inv (fun G1 => full G1 = full G)); [|reflexivity|exact E1]. intros k ph p G2 G3 H2. unfold nodal_forces.
      apply (four_inv (fun G1 => full G1 = full G)); [|exact H2]. intros G4 r n G5 H4 E4. pbinds E4. apply okg in E4. subst. exact H4. }
    destruct (cyclic_lr (pB P)); [unfold cyc_forces in E; pbinds E|]; apply okg in E; subst; exact H1.
  Qed.
  Lemma BCs_mesh P r G G' : BCs P r G = Ok G' -> full G' = full G.
  Proof.
    unfold BCs. cbv zeta. intros E. match type of E with (if ?c then _ else _) = _ => destruct c; [discriminate E|] end. apply okg in E. subst.
    destruct (vertical_force (pB P)), (horizontal_force (pB P)); reflexivity.
  Qed.
  Lemma momentum_mesh P G G' : update_momentum P G = Ok G' -> mesh G' = mesh G /\ (roughness (pB P) = false \/ truthy_mu (wall_mu (pB P)) = None -> full G' = full G).
  Proof.
    unfold update_momentum. cbv zeta. intros E.
    destruct (roughness (pB P)); [destruct (truthy_mu (wall_mu (pB P))); [destruct (friction_masks P G)|]|];
      (destruct (conveyor (pB P)); [destruct (attr (p_v0 P)); [|discriminate E]|]); cbn [bind] in E; apply okg in E; subst;
      (split; [reflexivity|]; intros [H|H]; try discriminate H; reflexivity).
  Qed.
  Lemma segregate_mesh fill P L G L' G' : segregate fill P L G = Ok (L', G') -> full G' = full G.
  Proof.
    unfold segregate. intros E. pbinds E. apply okgp in E. destruct E as [_ <-].
    match goal with H : cyc_fields _ _ _ = Ok _ |- _ => apply cyc_fields_mesh in H; rewrite H end.
    match goal with H : calculate_phi_increment _ _ _ = Ok _ |- _ => unfold calculate_phi_increment in H; pbinds H; apply okg in H; subst end. reflexivity.
  Qed.
  Lemma wipe_mesh P G : full (wipe P G) = full G.
  Proof. unfold wipe. destruct (p_seg P); reflexivity. Qed.
  Lemma march_mesh uf fill (s s' : state T) : time_march uf fill s = Ok s' ->
    mesh (sG s') = mesh (sG s) /\ (roughness (pB (sP s)) = false \/ truthy_mu (wall_mu (pB (sP s))) = None -> full (sG s') = full (sG s)).
  Proof.
    intros E. unfold time_march in E. cbv zeta in E.
    destruct (sol0 (sL s)) as [S0|]; [|discriminate E]. cbn [bind] in E. set (P := sP s <| p_loads := _ |>) in *.
    destruct (update_forces P _) as [L0|]; [|discriminate E]. cbn [bind] in E.
    destruct (ref_nodes P _ _) as [L1|]; [|discriminate E]. cbn [bind] in E.
    destruct (basis_all _ _) as [L2|]; [|discriminate E]. cbn [bind] in E.
    match type of E with bind ?x _ = _ => destruct x as [?u|]; [|discriminate E] end. cbn [bind] in E.
    destruct (p2g_all P _ _) as [G1|] eqn:E1; [|discriminate E]. cbn [bind] in E. apply p2g_all_mesh in E1. rewrite wipe_mesh in E1.
    match type of E with bind ?x _ = _ => destruct x as [G2|] eqn:E2; [|discriminate E] end. cbn [bind] in E.
    assert (H2 : full G2 = full G1).
    { destruct (cyclic_lr (pB P)); [unfold cyc_mq in E2; pbinds E2|]; apply okg in E2; subst; reflexivity. }
    destruct (stress_strain P L2 G2) as [[L3 G3]|] eqn:E3; [|discriminate E]. cbn [bind] in E. apply stress_mesh in E3.
    destruct (forces_all P L3 G3) as [G4|] eqn:E4; [|discriminate E]. cbn [bind] in E. apply forces_mesh in E4.
    destruct (BCs P _ G4) as [G5|] eqn:E5; [|discriminate E]. cbn [bind] in E. apply BCs_mesh in E5.
    destruct (update_momentum P G5) as [G6|] eqn:E6; [|discriminate E]. cbn [bind] in E. apply momentum_mesh in E6. destruct E6 as [E6 E6'].
    match type of E with bind ?x _ = _ => destruct x as [[L7 G7]|] eqn:E7; [|discriminate E] end. cbn [bind] in E.
    assert (H7 : full G7 = full G6).
    { destruct (p_seg P); [apply segregate_mesh in E7; rewrite E7; reflexivity|]. apply okgp in E7. destruct E7 as [_ <-]. reflexivity. }
    destruct (move_all P G7 L7) as [L8|]; [|discriminate E]. cbn [bind] in E. destruct (inout P L8) as [L9|]; [|discriminate E]. cbn [bind] in E.
    apply okg in E. subst. cbn [sG]. assert (H5 : full G5 = full (sG s)) by congruence.
    split; [apply full_mesh in H5, H7; congruence|]. intros HM. rewrite H7, E6' by exact HM. exact H5.
  Qed.
End Mesh.

(** In every state that the program can reach, in every number system, the mesh is the one built at the start; the
    blocked nodes are the same as well unless the walls are rough and have a friction coefficient. *)
Lemma p_C82_mesh : forall (T : Type) (N : Num T) uf fill (s s' : state T), reach uf fill s s' ->
  mesh (sG s') = mesh (sG s) /\
  (roughness (pB (sP s)) = false \/ truthy_mu (wall_mu (pB (sP s))) = None -> bv (sG s') = bv (sG s) /\ bh (sG s') = bh (sG s)).
Proof.
  intros T N uf fill s s' RR.
  assert (A : mesh (sG s') = mesh (sG s) /\ (roughness (pB (sP s)) = false \/ truthy_mu (wall_mu (pB (sP s))) = None -> full (sG s') = full (sG s))).
  { induction RR as [|s1 tr s2 tr' RR IH E]; [split; reflexivity|]. destruct (reach_const _ _ _ _ RR) as (_ & CB & _).
    destruct (pass_inv _ _ _ _ _ _ E) as (s3 & dt & E3 & _ & -> & _). apply march_mesh in E3. rewrite CB in E3.
    destruct E3 as [A1 A2], IH as [B1 B2]. split; [congruence|]. intros HM. rewrite A2, B2 by exact HM. reflexivity. }
  destruct A as [A B]. split; [exact A|]. intros HM. specialize (B HM). apply (f_equal snd) in B. cbn [full snd] in B.
  split; [exact (f_equal fst B)|exact (f_equal snd B)].
Qed.
(** A step in a box. *)
Example x_C82_mesh : exists (G : grid Q) s', grid_init (T := Q) ex_gridp ex_box = Ok G /\
  reach (fun P => p_loads P) (fun _ l => l) (mkState (ex_params ex_box) G (ex_L Elastic)) s' /\ (p_t (sP s') == 1 # 10)%Q /\
  roughness (ex_box (T := Q)) = false.
Proof.
  eexists. eexists. split; [vm_compute; reflexivity|]. split; [|split].
  - eapply reach_S with (tr := []); [apply reach_0|]; vm_compute; reflexivity.
  - vm_compute. reflexivity.
  - reflexivity.
Qed.
(** With rough walls that have a friction coefficient the first step blocks nodes that the grid left free: here the
    masks of a grid without walls change. *)
Definition ex_rub : bounds Q := ex_bounds <| roughness := true |> <| wall_mu := Some (1 # 2)%Q |>.
Lemma p_C82_masks_refuted :
  exists (G : grid Q) s', grid_init (T := Q) ex_gridp ex_rub = Ok G /\
    reach (fun P => p_loads P) (fun _ l => l) (mkState (ex_params ex_rub) G (ex_L Elastic)) s' /\
    existsb (fun m => m) (bh G) = false /\ existsb (fun m => m) (bh (sG s')) = true.
Proof.
  eexists. eexists. split; [vm_compute; reflexivity|]. split; [|split].
  - eapply reach_S with (tr := []); [apply reach_0|]; vm_compute; reflexivity.
  - vm_compute. reflexivity.
  - vm_compute. reflexivity.
Qed.
