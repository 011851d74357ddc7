(** * The density of a particle: C64. *)
From Coq Require Import ZArith Reals List Bool Arith Lra Lia.
From Verif Require Import State NumR Spec SpecLaws SpecStep LibList LibR ModelGrid ModelConstit ModelParticle ModelMPList
  ModelIntegr ModelMain ProofsGrid ProofsMap ProofsP2G ProofsWalls ProofsLaws ProofsInOut ProofsHist Concrete
  ThmMapping ThmWalls ThmLaws ThmInOut ThmHist ProofsStep ProofsPoints ThmStep ThmBalance ThmEnergy.
Import ListNotations.
Local Open Scope R_scope.

(** After a step the density of a point is the tent-weighted sum, at the place
    where the point was, of nodal mass over nodal volume; nodes below the mass
    threshold count as empty. *)
Lemma p_C64_density : forall uf fill (s s' : state R), proper (pG (sP s)) -> grid_ok (pG (sP s)) (sG s) ->
  all_live (sL s) (fun _ p => in_dom (pG (sP s)) (px p)) -> shut (sP s) ->
  (forall ph, In ph (sL s) -> s_law (ph_sol ph) <> Rigid) -> time_march uf fill s = Ok s' ->
  Prel (fun _ p p' => prho p' = fsum (nodes (pG (sP s))) (fun k => hat (pG (sP s)) (px p) k *
     (if Rlt_dec (p_Mtol (sP s)) (nth k (gm (sG s')) 0) then nth k (gm (sG s')) 0 / nth k (gV (sG s)) 0 else 0))) (sL s) (sL s').
Proof.
  intros uf fill s s' HP HG HD HS HR E. pose proof HS as (Hs & Hc & Hv & O1 & O2 & I1 & I2).
  destruct (march_stages uf fill s s' HP HG HD Hs Hc E) as
    (S1 & L1 & L3 & L4 & L5 & G1 & G3 & G4 & G5 & G6 & HS1 & E1 & R1 & R3 & E2 & F1 & E3 & R4 & F3 & Lo & E4 & LF & E5 & Z4 & Z5 & E6 & EP & EG & PM & EI).
  set (P := sP s <| p_loads := uf (sP s) |>) in *. set (Pg := pG (sP s)) in *.
  destruct (force_loop_spec P L4 G3 G4 LF E4) as (F4 & _ & FI & FE).
  pose proof (BCs_frame _ _ _ _ E5) as F5. destruct (um_shape P G5 G6 E6) as [F6 _].
  destruct (wipe_frame (sP s) (sG s)) as (WV & _).
  unfold frame_all in F1. unfold vis_frame in F3. unfold frame_f in F4. unfold force_frame in F5.
  assert (EV : gV G6 = gV (sG s)).
  { rewrite F6. cbn. rewrite F5. cbn. rewrite F4. cbn. rewrite F3. cbn. rewrite F1. cbn. exact WV. }
  assert (IO : inout P L5 = Ok L5).
  { unfold inout. change (pB P) with (pB (sP s)). rewrite O1, O2, I1, I2, Hc. reflexivity. }
  rewrite IO in EI. injection EI as EI. rewrite <- EI.
  assert (RX : Lrel (fun ph p p' => px p' = px p) (sL s) L4).
  { eapply Lrel_trans; [exact R1| |].
    - eapply (Lrel_trans _ _ (fun _ p p' => px p' = px p)); [exact R3|exact R4|].
      cbv beta. intros ph ph' p p1 p2 _ _ _ _ [_ ->] [X _]. unfold strained, law_frame in X. rewrite X. reflexivity.
    - cbv beta. intros ph ph' p p1 p2 _ _ _ _ [b ->] X. exact X. }
  assert (R5 := Forall2_conj_l _ _ _ _ RX HR).
  eapply Forall2_imp; [|exact (Forall2_comp _ _ _ _ _ R5 PM)].
  cbv beta. intros ph ph2 (ph1 & (NR & A1 & A2 & A3 & A4 & A5) & (B1 & B2 & B3 & _ & _ & B6)).
  split; [congruence|]. split; [congruence|]. split; [congruence|].
  rewrite A1 in B6. assert (IR : is_rigid (s_law (ph_sol ph)) = false) by (destruct (s_law (ph_sol ph)); try reflexivity; congruence).
  eapply Forall2_imp; [|exact (Forall2_comp _ _ _ _ _ A4 (B6 IR))].
  cbv beta. intros p p2 (p1 & X & Y). rewrite Y, X. apply fsum_ext. intros k Hk. f_equal. unfold node_rho. rewrite EV.
  assert (EM : gm (sG s') = gm G6) by (rewrite EG; reflexivity). rewrite EM. change (p_Mtol (sP s)) with (p_Mtol P).
  destruct (Rlt_dec (p_Mtol P) (nth k (gm G6) 0)) as [Q|Q].
  - rewrite (proj2 (Rltb_true _ _)) by exact Q. reflexivity.
  - destruct (Rltb (p_Mtol P) (nth k (gm G6) 0)) eqn:EB; [|reflexivity]. apply Rltb_true in EB. contradiction.
Qed.

(** Hence it lies between any bounds on the nodal densities; in particular a
    uniform nodal density is reproduced, and no density is negative. *)
Lemma p_C64_between : forall uf fill (s s' : state R) lo hi, proper (pG (sP s)) -> grid_ok (pG (sP s)) (sG s) ->
  all_live (sL s) (fun _ p => in_dom (pG (sP s)) (px p)) -> shut (sP s) ->
  (forall ph, In ph (sL s) -> s_law (ph_sol ph) <> Rigid) -> time_march uf fill s = Ok s' ->
  (forall k, (k < nodes (pG (sP s)))%nat -> p_Mtol (sP s) < nth k (gm (sG s')) 0 ->
     lo <= nth k (gm (sG s')) 0 / nth k (gV (sG s)) 0 <= hi) ->
  (lo <= 0 \/ forall k, (k < nodes (pG (sP s)))%nat -> p_Mtol (sP s) < nth k (gm (sG s')) 0) -> 0 <= hi ->
  all_live (sL s') (fun _ p => lo <= prho p <= hi).
Proof.
  intros uf fill s s' lo hi HP HG HD HS HR E HB HL Hhi.
  pose proof (p_C64_density uf fill s s' HP HG HD HS HR E) as Q.
  eapply (Prel_all_live _ _ _ (fun _ p => in_dom (pG (sP s)) (px p))); [exact Q| |exact HD].
  cbv beta. intros ph ph' p p' _ _ _ -> D. destruct (hat_sums (pG (sP s)) (px p) HP D) as (U & _). change (fsum (nodes (pG (sP s))) (hat (pG (sP s)) (px p)) = 1) in U.
  assert (B : forall k, (k < nodes (pG (sP s)))%nat -> lo <=
     (if Rlt_dec (p_Mtol (sP s)) (nth k (gm (sG s')) 0) then nth k (gm (sG s')) 0 / nth k (gV (sG s)) 0 else 0) <= hi).
  { intros k Hk. destruct (Rlt_dec _ _) as [X|X]; [apply HB; auto|]. destruct HL as [HL|HL]; [lra|]. exfalso. apply X, HL, Hk. }
  split.
  - apply Rle_trans with (fsum (nodes (pG (sP s))) (fun k => hat (pG (sP s)) (px p) k * lo)); [rewrite fsum_scal_r; change (fun i => hat (pG (sP s)) (px p) i) with (hat (pG (sP s)) (px p)); rewrite U; lra|].
    apply fsum_le. intros k Hk. apply Rmult_le_compat_l; [apply hat_nonneg|apply B, Hk].
  - apply Rle_trans with (fsum (nodes (pG (sP s))) (fun k => hat (pG (sP s)) (px p) k * hi)); [|rewrite fsum_scal_r; change (fun i => hat (pG (sP s)) (px p) i) with (hat (pG (sP s)) (px p)); rewrite U; lra].
    apply fsum_le. intros k Hk. apply Rmult_le_compat_l; [apply hat_nonneg|apply B, Hk].
Qed.

Example x_C64_density : forall uf fill, exists s s' : state R, proper (pG (sP s)) /\ grid_ok (pG (sP s)) (sG s) /\
  all_live (sL s) (fun _ p => in_dom (pG (sP s)) (px p)) /\ shut (sP s) /\
  (forall ph, In ph (sL s) -> s_law (ph_sol ph) <> Rigid) /\ time_march uf fill s = Ok s' /\ (exists ph p q, In ph (sL s) /\ live ph = [p; q]).
Proof.
  intros uf fill. set (B := ex_box (T := R)).
  destruct (grid_init_ok ex_gridp B ex_proper) as (G & EG & OK).
  pose proof (ex_ready B G EG OK eq_refl eq_refl eq_refl Elastic (or_introl eq_refl)) as HR.
  destruct (march_total uf fill _ HR) as [s' E].
  exists (start (ex_params B) G Elastic), s'.
  split; [exact ex_proper|]. split; [exact OK|]. split; [exact (ex_dom Elastic)|]. split; [repeat split; reflexivity|].
  split; [intros ph [<-|[]]; discriminate|]. split; [exact E|]. do 3 eexists. split; [left; reflexivity|reflexivity].
Qed.
Lemma ex_bounded (f : nat -> R) n : exists hi, 0 <= hi /\ forall k, (k < n)%nat -> f k <= hi.
Proof.
  induction n as [|n [h [H0 H]]]; [exists 0; split; [lra|lia]|]. exists (Rmax h (f n)). split; [apply Rle_trans with h; [lra|apply Rmax_l]|].
  intros k Hk. destruct (Nat.eq_dec k n) as [->|X]; [apply Rmax_r|]. apply Rle_trans with h; [apply H; lia|apply Rmax_l].
Qed.
Example x_C64_between : forall uf fill, exists (s s' : state R) hi, proper (pG (sP s)) /\ grid_ok (pG (sP s)) (sG s) /\
  all_live (sL s) (fun _ p => in_dom (pG (sP s)) (px p)) /\ shut (sP s) /\
  (forall ph, In ph (sL s) -> s_law (ph_sol ph) <> Rigid) /\ time_march uf fill s = Ok s' /\
  (forall k, (k < nodes (pG (sP s)))%nat -> p_Mtol (sP s) < nth k (gm (sG s')) 0 ->
     0 <= nth k (gm (sG s')) 0 / nth k (gV (sG s)) 0 <= hi) /\ 0 <= hi.
Proof.
  intros uf fill. set (B := ex_box (T := R)).
  destruct (grid_init_ok ex_gridp B ex_proper) as (G & EG & OK).
  pose proof (ex_ready B G EG OK eq_refl eq_refl eq_refl Elastic (or_introl eq_refl)) as HR.
  destruct (march_total uf fill _ HR) as [s' E].
  destruct (ex_bounded (fun k => nth k (gm (sG s')) 0 / nth k (gV G) 0) (nodes ex_gridp)) as (hi & H0 & HB).
  exists (start (ex_params B) G Elastic), s', hi.
  split; [exact ex_proper|]. split; [exact OK|]. split; [exact (ex_dom Elastic)|]. split; [repeat split; reflexivity|].
  split; [intros ph [<-|[]]; discriminate|]. split; [exact E|]. split; [|exact H0].
  intros k Hk HM. split; [|apply HB, Hk]. pose proof (p_C15_volumes_positive ex_gridp B G ex_proper EG ltac:(cbn; lra)) as (LV & PV).
  apply Rlt_le, Rdiv_lt_0_compat; [|apply PV, Hk]. apply Rlt_trans with (2 := HM). cbn. lra.
Qed.
