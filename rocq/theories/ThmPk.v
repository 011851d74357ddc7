(** * The kinetic pressure of the segregation model: C85. *)
From Coq Require Import ZArith Reals List Bool Arith Lra Lia.
From Verif Require Import State NumR LibR LibList Spec SpecFlow ModelGrid ModelConstit ModelParticle ModelMPList ModelIntegr ModelMain ProofsGrid ProofsHist Concrete ThmMapping ProofsStep ThmGeo ThmGrad.
Import ListNotations.
Local Open Scope R_scope.

(** ** C85 *)

Lemma nth_zip2 {A B C D E : Type} (f : A * B -> C * D -> E) la lb lc ld k a b c d e :
  (k < length la)%nat -> length lb = length la -> length lc = length la -> length ld = length la ->
  nth k (zipw f (combine la lb) (combine lc ld)) e = f (nth k la a, nth k lb b) (nth k lc c, nth k ld d).
Proof.
  intros Hk H1 H2 H3. rewrite (zipw_nth f _ _ k (a, b) (c, d) e).
  - rewrite !combine_nth by lia. reflexivity.
  - rewrite combine_length. lia.
  - rewrite combine_length. lia.
Qed.
Lemma segregate_pk fill (P : params R) L G L' G' : segregate fill P L G = Ok (L', G') ->
  exists S0 rho, sol0 L = Ok S0 /\ s_rho_s S0 = Some rho /\
  g_pk G' = zipw (fun gs pm => Rabs (fst gs) * snd gs * sqrt (rho * Rabs (fst pm / snd pm)))
     (combine (f_gammadot G) (g_sbar G)) (combine (f_pressure G) (gm G)) /\
  f_gammadot G' = f_gammadot G /\ g_sbar G' = g_sbar G /\ f_pressure G' = f_pressure G /\ gm G' = gm G /\
  exists G1, g_gradpk G' = calculate_gradient fill P G1 (g_pk G') /\ gm G1 = gm G /\ mesh G1 = mesh G /\ bv G1 = bv G /\ bh G1 = bh G.
Proof.
  unfold segregate. intros E. destruct (sol0 L) as [S0|]; [|discriminate E]. cbn [bind] in E.
  destruct (s_rho_s S0) as [rho|] eqn:ER; [|discriminate E]. cbn [bind attr] in E. cbv zeta in E.
  exists S0, rho. split; [reflexivity|]. split; [exact ER|].
  destruct (calculate_phi_increment P rho _) as [G1|] eqn:E1; [|discriminate E]. cbn [bind] in E.
  destruct (move_grainsize P G1 L) as [L1|]; [|discriminate E]. cbn [bind] in E.
  destruct (cyc_fields P [Feta] G1) as [G2|] eqn:E2; [|discriminate E]. cbn [bind] in E. apply okgp in E. destruct E as [_ <-].
  unfold calculate_phi_increment in E1. pbinds E1. apply okg in E1. subst G1.
  unfold cyc_fields in E2. cbn [foldM] in E2. match type of E2 with bind (bind ?x _) _ = _ => destruct x as [l|]; [|discriminate E2] end.
  cbn [bind] in E2. apply okg in E2. rewrite <- E2. cbn. do 5 (split; [reflexivity|]). eexists. split; [reflexivity|]. repeat split.
Qed.

(** At every node that carries mass the kinetic pressure is the pressure times the inertial number of the flow there; it
    is zero where there is no pressure, never negative, and does not depend on the direction of the shear. *)
Lemma p_C85_inertial : forall fill (P : params R) L G L' G' rho S0, segregate fill P L G = Ok (L', G') ->
  sol0 L = Ok S0 -> s_rho_s S0 = Some rho -> 0 <= rho ->
  length (f_gammadot G) = nodes (pG P) -> length (g_sbar G) = nodes (pG P) -> length (f_pressure G) = nodes (pG P) -> length (gm G) = nodes (pG P) ->
  forall k, (k < nodes (pG P))%nat -> nth k (gm G) 0 <> 0 ->
  let p := Rabs (nth k (f_pressure G) 0 / nth k (gm G) 0) in
  nth k (g_pk G') 0 = p * inertial (nth k (f_gammadot G) 0) (nth k (g_sbar G) 0) rho p /\
  (p = 0 -> nth k (g_pk G') 0 = 0) /\ (0 <= nth k (g_sbar G) 0 -> 0 <= nth k (g_pk G') 0).
Proof.
  intros fill P L G L' G' rho S0 E ES ER HR L1 L2 L3 L4 k Hk Hm p.
  destruct (segregate_pk fill P L G L' G' E) as (S1 & rho1 & A1 & A2 & A3 & _). rewrite ES in A1. injection A1 as <-.
  rewrite ER in A2. injection A2 as <-.
  assert (V : nth k (g_pk G') 0 = Rabs (nth k (f_gammadot G) 0) * nth k (g_sbar G) 0 * sqrt (rho * p)).
  { rewrite A3. rewrite (nth_zip2 _ _ _ _ _ k 0 0 0 0) by congruence. reflexivity. }
  assert (HP : 0 <= p) by apply Rabs_pos.
  rewrite V. unfold inertial. split; [|split].
  - destruct (Req_dec p 0) as [Z|Z].
    + rewrite Z, Rmult_0_r, sqrt_0. ring.
    + assert (HP' : 0 < p) by lra. rewrite sqrt_mult by lra. rewrite sqrt_div by lra. rewrite <- (sqrt_sqrt p) at 2 by lra.
      pose proof (sqrt_lt_R0 p HP'). field. lra.
  - intros Z. rewrite Z, Rmult_0_r, sqrt_0. ring.
  - intros Hs. repeat apply Rmult_le_pos; auto using Rabs_pos, sqrt_pos.
Qed.
(** Where the kinetic pressure varies linearly over a grid without empty nodes, the gradient that drives the segregation is
    its slope, at every node, the boundary included. *)
Lemma p_C85_gradient : forall fill (P : params R) L G L' G' a b c, segregate fill P L G = Ok (L', G') ->
  proper (pG P) -> grid_ok (pG P) G -> fills fill -> no_empty P G -> affine_field (pG P) (g_pk G') a b c ->
  forall k, (k < nodes (pG P))%nat -> nth k (g_gradpk G') v0 = mkV3 b c 0.
Proof.
  intros fill P L G L' G' a b c E HP HG HF HN HA k Hk.
  destruct (segregate_pk fill P L G L' G' E) as (_ & _ & _ & _ & _ & _ & _ & _ & _ & G1 & -> & M1 & M2 & M3 & M4).
  assert (N1 : no_empty P G1) by (unfold no_empty in *; rewrite M1; exact HN).
  assert (O1 : grid_ok (pG P) G1).
  { unfold mesh in M2. injection M2 as Q1 Q2 Q3 Q4 Q5 Q6 Q7. destruct HG. constructor; rewrite ?Q1, ?Q2, ?Q3, ?Q4, ?Q5, ?Q6, ?Q7, ?M3, ?M4; assumption. }
  apply (p_C48_gradient fill P G1 (g_pk G') a b c HP O1 HF N1 HA). exact Hk.
Qed.
Definition pk_params : params R := ex_params ex_bounds <| p_seg := true |> <| p_c := Some 1 |> <| p_l := Some 1 |>.
Definition pk_L : list (phase R) := map (fun ph => ph <| ph_n := 0%nat |>) (ex_L Elastic).
Definition pk_grid (G : grid R) : grid R :=
  G <| f_gammadot := repeat (-1) 12 |> <| g_sbar := repeat (3/2) 12 |> <| f_pressure := repeat 8 12 |> <| gm := repeat 2 12 |>
    <| g_phi := repeat [1/2; 1/2] 12 |> <| f_eta := repeat 0 12 |>.
Lemma pk_ok G : exists r, segregate (fun _ l => l) pk_params pk_L (pk_grid G) = Ok r.
Proof.
  unfold segregate.
  assert (A0 : exists S0 rho, sol0 pk_L = Ok S0 /\ s_rho_s S0 = Some rho) by (do 2 eexists; split; reflexivity).
  destruct A0 as (S0 & rho & -> & ER). cbn [bind]. rewrite ER. cbn [bind attr]. cbv zeta.
  assert (A1 : f_eta (update_pk (fun _ l => l) pk_params rho (pk_grid G)) = repeat 0 12) by reflexivity.
  revert A1. generalize (update_pk (fun _ l => l) pk_params rho (pk_grid G)). intros G1 A1.
  assert (A2 : exists d, calculate_phi_increment pk_params rho G1 = Ok (G1 <| g_dphi := d |>)) by (eexists; reflexivity).
  destruct A2 as [d ->]. cbn [bind].
  assert (A3 : forall G2, exists L', move_grainsize pk_params G2 pk_L = Ok L') by (intros; eexists; reflexivity).
  destruct (A3 (G1 <| g_dphi := d |>)) as [L' ->]. cbn [bind].
  unfold cyc_fields. cbn [foldM sget]. change (f_eta (G1 <| g_dphi := d |>)) with (f_eta G1). rewrite A1.
  assert (A4 : exists l, cyc nadd (nx (pG pk_params)) (repeat 0 12) = Ok l) by (eexists; reflexivity).
  destruct A4 as [l ->]. cbn [bind]. eauto.
Qed.
(** A sheared field under pressure, with a phase whose points have all left (so that only the grid matters). *)
Example x_C85_inertial : exists (G : grid R) L' G' rho S0, segregate (fun _ l => l) pk_params pk_L G = Ok (L', G') /\
  sol0 pk_L = Ok S0 /\ s_rho_s S0 = Some rho /\ 0 <= rho /\
  length (f_gammadot G) = nodes (pG pk_params) /\ length (g_sbar G) = nodes (pG pk_params) /\
  length (f_pressure G) = nodes (pG pk_params) /\ length (gm G) = nodes (pG pk_params) /\ nth 0 (gm G) 0 <> 0 /\ 0 < nth 0 (g_pk G') 0.
Proof.
  destruct (grid_init_ok ex_gridp ex_bounds ex_proper) as (G & EG & OK). exists (pk_grid G).
  destruct (pk_ok G) as [[L' G'] E].
  exists L', G'. eexists. eexists. split; [exact E|]. split; [reflexivity|]. split; [reflexivity|]. split; [cbn; lra|].
  do 4 (split; [reflexivity|]). split; [cbn; lra|].
  destruct (segregate_pk _ _ _ _ _ _ E) as (S1 & rho1 & A1 & A2 & A3 & _). rewrite A3. cbn.
  apply Rmult_lt_0_compat.
  - rewrite Rabs_left by lra. lra.
  - apply sqrt_lt_R0. cbn in A1. injection A1 as <-. cbn in A2. injection A2 as <-. rewrite Rabs_right by lra. lra.
Qed.
