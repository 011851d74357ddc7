(** * The stages of a step with every option: which nodal values are left at its end. *)
From Coq Require Import ZArith Reals List Bool Arith Lra Lia.
From RecordUpdate Require Import RecordUpdate.
From Verif Require Import State NumR Spec SpecLaws SpecStep SpecScheme SpecLocal LibList LibR ModelGrid ModelConstit ModelParticle ModelMPList
  ModelIntegr ModelMain ProofsGrid ProofsMap ProofsP2G ProofsWalls ProofsLaws ProofsInOut ProofsHist Concrete
  ThmMapping ThmWalls ThmLaws ThmInOut ThmHist ProofsStep ProofsPoints ThmStep ThmBalance ThmEnergy ThmFall ThmGeo ProofsRing ThmSift ThmGrade ThmPk.
Import ListNotations.
Local Open Scope R_scope.

(** A point keeps its place and its velocity while the grid is worked out. *)
Definition held (p p' : particle R) : Prop := px p' = px p /\ pv p' = pv p.

Lemma march_any uf fill s s' : proper (pG (sP s)) -> grid_ok (pG (sP s)) (sG s) ->
  all_live (sL s) (fun _ p => in_dom (pG (sP s)) (px p)) -> time_march uf fill s = Ok s' ->
  let P := sP s <| p_loads := uf (sP s) |> in let Pg := pG (sP s) in
  exists L3 L4 L5 G1 Gc,
    Lrel (fun _ p p' => in_dom Pg (px p) /\ exists b, p' = locate Pg (p <| pb := b |>)) (sL s) L3 /\
    p2g_all P L3 (wipe P (sG s)) = Ok G1 /\ (if cyclic_lr (pB P) then cyc_mq P G1 else Ok G1) = Ok Gc /\
    Lrel (fun _ p p' => held p p') L3 L4 /\
    sP s' = P /\ gm (sG s') = gm Gc /\ gV (sG s') = gV (sG s) /\ g_sbar (sG s') = g_sbar G1 /\
    length (gm (sG s')) = nodes Pg /\ length (gq (sG s')) = nodes Pg /\ length (gm G1) = nodes Pg /\
    Forall2 (phase_moved P (sG s')) L4 L5 /\ inout P L5 = Ok (sL s').
Proof.
  intros HP HG HD E P Pg.
  unfold time_march in E. fold P in E. cbv zeta in E. pbinds E.
  rename a into S0, a0 into L1, a1 into L2, a2 into L3, a4 into G1, a5 into Gc, b into L4, b0 into G3, a6 into Gf, a7 into G5, a8 into G6, b1 into L4s, b2 into G7.
  injection E as <-. cbn [sP sG sL].
  change (wipe (sP s) (sG s)) with (wipe P (sG s)) in *. set (G0 := wipe P (sG s)) in *.
  assert (OK0 : grid_ok Pg G0) by (apply wipe_ok; exact HG).
  assert (R1 : Lrel (fun _ p p' => exists b, p' = p <| pb := b |>) (sL s) L1).
  { eapply points__rel; [|exact E1]. intros k ph p p' _ _ X. injection X as <-. unfold increment_gravity.
    destruct (Nat.eqb k 0); [eauto|]. exists (pb p). destruct p; reflexivity. }
  assert (D1 : all_live L1 (fun _ p => in_dom (pG P) (px p))).
  { eapply Lrel_all_live; [exact R1| |exact HD]. cbv beta. intros ph p ph' p' _ _ _ _ _ [b ->]. auto. }
  pose proof (locate_loops P G0 L1 L2 L3 HP OK0 D1 E2 E3) as R3.
  assert (PL : p2g_lens P G0) by apply (wipe_lens P (sG s)).
  pose proof (p2g_all_frame P L3 G0 G1 PL E5) as F1.
  destruct (p2g_all_mass P L3 G0 G1 PL E5) as (Lm & _).
  destruct (wipe_frame P (sG s)) as (WV & Wv & Wh & Wc). fold G0 in WV, Wv, Wh, Wc.
  destruct (p2g_all_mom P L3 G0 G1 PL) as (Lq & _); [rewrite Wv; apply HG|rewrite Wh; apply HG|exact E5|].
  assert (FC : Gc = G1 <| gm := gm Gc |> <| gq := gq Gc |> /\ length (gm Gc) = nodes Pg /\ length (gq Gc) = nodes Pg).
  { clear - HP E6 Lm Lq. destruct (cyclic_lr (pB P)).
    - unfold cyc_mq in E6. pbinds E6. injection E6 as <-. split; [reflexivity|]. cbn [gm gq set].
      match goal with H : cyc nadd _ _ = Ok ?x, H' : cyc vadd _ _ = Ok ?y |- _ => rename H into EM; rename H' into EQ end.
      change (nx (pG P)) with (nx Pg) in EM, EQ.
      destruct (p_C09_make_cyclic R nadd 0 (nx Pg) (ny Pg) (gm G1) (proj1 HP) Lm) as (l1 & A1 & A2 & _). rewrite EM in A1. injection A1 as <-.
      destruct (p_C09_make_cyclic _ vadd v0 (nx Pg) (ny Pg) (gq G1) (proj1 HP) Lq) as (l2 & B1 & B2 & _). rewrite EQ in B1. injection B1 as <-.
      split; assumption.
    - injection E6 as <-. split; [destruct G1; reflexivity|]. split; assumption. }
  destruct FC as (FC & LMc & LQc).
  destruct (stress_strain_rel P L3 Gc L4 G3 E7) as [R4 F3].
  assert (Lo3 : all_live L3 (fun _ p => located Pg p)).
  { eapply (Lrel_all_live _ _ _ _ _ R3); [|exact D1]. cbv beta. intros ? ? ? ? _ _ _ _ _ -> X. apply locate_located; exact X. }
  assert (Lo4 : all_live L4 (fun _ p => located Pg p)).
  { eapply (Lrel_all_live _ _ _ _ _ R4); [|exact Lo3]. cbv beta. intros ? ? ? ? _ _ _ _ _ (X & _). apply strained_located, X. }
  assert (FL : f_lens P G3).
  { unfold f_lens. rewrite F3. cbn. rewrite FC. cbn. rewrite F1. cbn. unfold G0. rewrite wipe_fi, wipe_fe, repeat_length. auto. }
  destruct (forces_frame P L4 G3 Gf HP FL E8) as [F4 FL4]. unfold frame_f in F4.
  assert (SZ4 : sized Pg Gf).
  { unfold sized. change (nx Pg * ny Pg)%nat with (nodes Pg).
    rewrite (proj1 FL4), (proj2 FL4). rewrite F4. cbn [bv bh bconv gm gq gext set]. rewrite F3. cbn [bv bh bconv gm gq gext set].
    rewrite LMc, LQc. rewrite FC. cbn [bv bh bconv gm gq gext set]. rewrite F1. cbn [bv bh bconv gm gq gext set]. rewrite Wv, Wh, Wc.
    rewrite (go_bv _ _ HG), (go_bh _ _ HG), (go_bconv _ _ HG). unfold G0, wipe. destruct (p_seg P); cbn [gext set];
    rewrite repeat_length; do 7 (split; [reflexivity|]); reflexivity. }
  assert (SZ5 : sized (pG P) G5) by (eapply BCs_sized; [exact SZ4|exact E9]).
  pose proof (BCs_frame _ _ _ _ E9) as F5. unfold force_frame in F5.
  destruct (um_shape P G5 G6 E10) as [F6 _].
  assert (GD : Lrel (fun _ p p' => graded p p') L4 L4s /\ same_nodes G6 G7 /\ g_sbar G7 = g_sbar G6).
  { destruct (p_seg P).
    - destruct (segregate_rel fill P L4 (calculate_gammadot fill P G6) L4s G7 E11) as [A B].
      destruct (segregate_pk fill P L4 _ L4s G7 E11) as (? & ? & _ & _ & _ & _ & C & _). split; [exact A|]. split; [exact B|exact C].
    - injection E11 as <- <-. split; [apply Lrel_refl; intros; apply graded_refl|repeat split]. }
  destruct GD as (GD & SN & SB). pose proof SN as (N1 & N2 & N3 & N4).
  assert (EM : gm G7 = gm Gc). { rewrite N1, F6. cbn. rewrite F5. cbn. rewrite F4. cbn. rewrite F3. reflexivity. }
  assert (EV : gV G7 = gV (sG s)).
  { rewrite N4, F6. cbn. rewrite F5. cbn. rewrite F4. cbn. rewrite F3. cbn. rewrite FC. cbn. rewrite F1. cbn. exact WV. }
  assert (ES : g_sbar G7 = g_sbar G1). { rewrite SB, F6. cbn. rewrite F5. cbn. rewrite F4. cbn. rewrite F3. cbn. rewrite FC. reflexivity. }
  assert (LQ : length (gq G7) = nodes Pg) by (rewrite N2; apply (um_q_len P G5 G6 SZ5 E10)).
  assert (LM : length (gm G7) = nodes Pg) by (rewrite EM; exact LMc).
  exists L3, L4s, a9, G1, Gc. split.
  { eapply Lrel_trans; [exact R1|exact R3|]. cbv beta. intros ph ph' p p1 p2 Hin Hp A B [b ->] ->. split; [apply (HD ph p Hin Hp)|]. exists b. reflexivity. }
  split; [exact E5|]. split; [exact E6|]. split.
  { eapply Lrel_trans; [exact R4|exact GD|]. cbv beta. intros ph ph' p p1 p2 _ _ _ _ [X _] [Y _]. unfold strained, law_frame in X. unfold held. rewrite Y, X. cbn. split; reflexivity. }
  split; [reflexivity|]. split; [exact EM|]. split; [exact EV|]. split; [exact ES|]. split; [exact LM|]. split; [exact LQ|]. split; [exact Lm|].
  split; [|exact E13].
  apply (move_all_rel P G7 L4s a9); auto.
  - eapply (Lrel_all_live _ _ _ _ _ GD); [|exact Lo4]. cbv beta. intros ? ? ? ? _ _ _ _ _ X Y. eapply graded_located; eassumption.
  - rewrite N3. rewrite (um_qd P G5 G6 E10); apply (rates_len P G5 SZ5).
  - rewrite EV. apply (go_Vlen _ _ HG).
Qed.
