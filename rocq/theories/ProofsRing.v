(** * The cylinder: geometry, and the stages of a step with cyclic_lr. *)
From Coq Require Import ZArith Reals List Bool Arith Lra Lia.
From Verif Require Import State NumR Spec SpecLaws SpecStep SpecScheme SpecRing LibList LibR ModelGrid ModelConstit ModelParticle ModelMPList
  ModelIntegr ModelMain ProofsGrid ProofsMap ProofsP2G ProofsWalls ProofsLaws ProofsInOut ProofsHist Concrete
  ThmMapping ThmWalls ThmLaws ThmInOut ThmHist ProofsStep ProofsPoints ThmStep ThmBalance ThmEnergy ThmFall ThmGeo ProofsScheme ThmScheme.
Import ListNotations.
Local Open Scope R_scope.

Section Tie.
  Context (P : gridp R) (HP : proper P).
  Let Hn : (2 <= nx P)%nat. Proof. apply HP. Qed.

  (** A nodal value with that of the node at the other end of its row. *)
  Definition tie (g : nat -> R) (k : nat) : R :=
    g k + (if Nat.eqb (k mod nx P) 0 then g (k + (nx P - 1))%nat
           else if Nat.eqb (k mod nx P) (nx P - 1) then g (k - (nx P - 1))%nat else 0).
  (** The column of a node on the cylinder. *)
  Definition rc (k : nat) : nat := if Nat.eqb (k mod nx P) (nx P - 1) then 0%nat else (k mod nx P)%nat.

  Lemma rc_lt k : (rc k < nx P - 1)%nat.
  Proof. unfold rc. pose proof (Nat.mod_upper_bound k (nx P)). destruct (Nat.eqb_spec (k mod nx P) (nx P - 1)); lia. Qed.
  Lemma node_at j i : (i < nx P)%nat -> ((j * nx P + i) mod nx P = i)%nat /\ ((j * nx P + i) / nx P = j)%nat.
  Proof.
    intros Hi. split.
    - rewrite Nat.add_comm, Nat.mod_add by lia. apply Nat.mod_small. exact Hi.
    - rewrite Nat.div_add_l by lia. rewrite (Nat.div_small i) by exact Hi. lia.
  Qed.
  Lemma node_eq k : (k = (k / nx P) * nx P + k mod nx P)%nat.
  Proof. pose proof (Nat.div_mod k (nx P)). lia. Qed.
  Lemma row_lt k : (k < nodes P)%nat -> (k / nx P < ny P)%nat.
  Proof. intros H. apply Nat.div_lt_upper_bound; [lia|]. unfold nodes in H. lia. Qed.

  (** The tied value at a node, by its row and its column on the cylinder. *)
  Lemma tie_ring g k : tie g k = tie g ((k / nx P) * nx P + rc k).
  Proof.
    pose proof (node_eq k) as E. pose proof (Nat.mod_upper_bound k (nx P)) as U.
    set (j := (k / nx P)%nat) in *. set (i := (k mod nx P)%nat) in *. unfold rc. fold i.
    destruct (Nat.eqb_spec i (nx P - 1)) as [C|C]; [|rewrite E; reflexivity].
    unfold tie. rewrite (proj1 (node_at j 0 ltac:(lia))). fold i. rewrite C.
    destruct (Nat.eqb_spec (nx P - 1) 0) as [D|D]; [lia|]. rewrite Nat.eqb_refl. cbn [Nat.eqb].
    replace (k - (nx P - 1))%nat with (j * nx P + 0)%nat by lia. replace (j * nx P + 0 + (nx P - 1))%nat with k by lia. lra.
  Qed.
  Lemma tie_ext f g k : (k < nodes P)%nat -> (forall k, (k < nodes P)%nat -> f k = g k) -> tie f k = tie g k.
  Proof.
    intros Hk H. pose proof (row_lt k Hk). pose proof (node_eq k). pose proof (Nat.mod_upper_bound k (nx P)). unfold tie. rewrite (H k Hk).
    destruct (Nat.eqb_spec (k mod nx P) 0).
    - rewrite H; [reflexivity|]. unfold nodes. nia.
    - destruct (Nat.eqb_spec (k mod nx P) (nx P - 1)); [|reflexivity]. rewrite H; [reflexivity|lia].
  Qed.
  Lemma tie_Rsum {A} (F : A -> nat -> R) l k : tie (fun k => Rsum (map (fun q => F q k) l)) k = Rsum (map (fun q => tie (F q) k) l).
  Proof.
    unfold tie. destruct (Nat.eqb _ _); [|destruct (Nat.eqb _ _)]; rewrite Rsum_plus; [reflexivity..|].
    f_equal. symmetry. apply Rsum_zero. reflexivity.
  Qed.
  Lemma tie_lin a b f g k : tie (fun k => a * f k + b * g k) k = a * tie f k + b * tie g k.
  Proof. unfold tie. destruct (Nat.eqb _ _); [|destruct (Nat.eqb _ _)]; ring. Qed.
  Lemma tie_scal a f k : tie (fun k => a * f k) k = a * tie f k.
  Proof. unfold tie. destruct (Nat.eqb _ _); [|destruct (Nat.eqb _ _)]; ring. Qed.

  (** Gathering from tied nodal values. *)
  Lemma gather F (g : nat -> nat -> R) : fsum (nodes P) (fun k => F k * g (rc k) (k / nx P)%nat) =
    fsum (ny P) (fun j => fsum (nx P - 1) (fun i => tie F (j * nx P + i) * g i j)).
  Proof.
    unfold nodes. rewrite Nat.mul_comm, fsum_rows. apply fsum_ext. intros j Hj.
    replace (nx P) with ((nx P - 1) + 1)%nat at 1 by lia. rewrite fsum_split. cbn [fsum].
    rewrite (fsum_ext _ (fun i => tie F (j * nx P + i) * g i j)
      (fun i => F (j * nx P + i)%nat * g i j + (if Nat.eqb i 0 then F (j * nx P + (nx P - 1))%nat * g 0%nat j else 0))).
    - rewrite fsum_plus, fsum_delta by lia. unfold rc. rewrite !Nat.add_0_r.
      destruct (node_at j (nx P - 1) ltac:(lia)) as [-> ->]. rewrite Nat.eqb_refl. rewrite Rplus_0_l. f_equal.
      apply fsum_ext. intros i Hi. destruct (node_at j i ltac:(lia)) as [-> ->].
      destruct (Nat.eqb_spec i (nx P - 1)); [lia|reflexivity].
    - intros i Hi. unfold tie. destruct (node_at j i ltac:(lia)) as [-> _].
      destruct (Nat.eqb_spec i 0) as [->|C]; [rewrite Nat.add_0_r; ring|]. destruct (Nat.eqb_spec i (nx P - 1)); [lia|ring].
  Qed.

  (** Wrapped hat functions. *)
  Lemma girth_w : girth P = (INR (nx P) - 1) * cell_w P.
  Proof. unfold girth, cell_w. assert (2 <= INR (nx P)) by (change 2 with (INR 2); apply le_INR; exact Hn). field. lra. Qed.
  Lemma r_x_last : r_x P (nx P - 1) = x_m P + girth P.
  Proof. rewrite girth_w. unfold r_x. rewrite minus_INR by lia. cbn [INR]. reflexivity. Qed.
  Lemma around_near f x i : (forall d, d < - cell_w P \/ cell_w P <= d -> f d = 0) -> x_m P <= x < x_M P -> (i < nx P - 1)%nat ->
    around (girth P) f (x - r_x P i) = f (x - r_x P i) + (if Nat.eqb i 0 then f (x - r_x P (nx P - 1)) else 0).
  Proof.
    intros Hf Hx Hi. pose proof (cell_w_pos P HP) as Hw. unfold around.
    assert (I1 : INR i <= INR (nx P) - 2). { replace 2 with (INR 2) by reflexivity. rewrite <- minus_INR by lia. apply le_INR. lia. }
    assert (XM : x_M P = x_m P + girth P) by (unfold girth; lra).
    assert (U : r_x P i <= x_m P + girth P - cell_w P).
    { rewrite girth_w. unfold r_x. assert (INR i * cell_w P <= (INR (nx P) - 2) * cell_w P) by (apply Rmult_le_compat_r; lra). lra. }
    rewrite (Hf (x - r_x P i + girth P)) by lra. rewrite r_x_last.
    destruct (Nat.eqb_spec i 0) as [->|C].
    - replace (x - r_x P 0 - girth P) with (x - (x_m P + girth P)) by (unfold r_x; cbn [INR]; ring). ring.
    - assert (L : x_m P + cell_w P <= r_x P i).
      { unfold r_x. assert (1 <= INR i) by (change 1 with (INR 1); apply le_INR; lia).
        assert (1 * cell_w P <= INR i * cell_w P) by (apply Rmult_le_compat_r; lra). lra. }
      rewrite (Hf (x - r_x P i - girth P)) by lra. ring.
  Qed.
  Lemma tent_off d : d < - cell_w P \/ cell_w P <= d -> tent (d / cell_w P) = 0.
  Proof.
    pose proof (cell_w_pos P HP) as Hw. intros H. apply tent_far. destruct H.
    - left. apply (Rmult_le_reg_r (cell_w P)); [exact Hw|]. unfold Rdiv. rewrite Rmult_assoc, Rinv_l by lra. lra.
    - right. apply (Rmult_le_reg_r (cell_w P)); [exact Hw|]. unfold Rdiv. rewrite Rmult_assoc, Rinv_l by lra. lra.
  Qed.
  Lemma slope_off d : d < - cell_w P \/ cell_w P <= d -> slope (d / cell_w P) / cell_w P = 0.
  Proof.
    pose proof (cell_w_pos P HP) as Hw. intros H. rewrite slope_far; [lra|]. destruct H.
    - left. apply (Rmult_lt_reg_r (cell_w P)); [exact Hw|]. unfold Rdiv. rewrite Rmult_assoc, Rinv_l by lra. lra.
    - right. apply (Rmult_le_reg_r (cell_w P)); [exact Hw|]. unfold Rdiv. rewrite Rmult_assoc, Rinv_l by lra. lra.
  Qed.
  Lemma tie_prod (c r : nat -> R) F j i : (forall k, F k = c (k mod nx P)%nat * r (k / nx P)%nat) -> (i < nx P - 1)%nat ->
    tie F (j * nx P + i) = (c i + (if Nat.eqb i 0 then c (nx P - 1)%nat else 0)) * r j.
  Proof.
    intros HF Hi. unfold tie. rewrite !HF. destruct (node_at j i ltac:(lia)) as [-> ->].
    destruct (Nat.eqb_spec i 0) as [->|C].
    - rewrite Nat.add_0_r. destruct (node_at j (nx P - 1) ltac:(lia)) as [-> ->]. ring.
    - destruct (Nat.eqb_spec i (nx P - 1)); [lia|]. ring.
  Qed.
  Lemma tie_hat x i j : in_dom P x -> (i < nx P - 1)%nat -> tie (hat P x) (j * nx P + i) = rhat P x i j.
  Proof.
    intros [HX _] Hi.
    rewrite (tie_prod (fun i => tent ((vx x - r_x P i) / cell_w P)) (fun j => tent ((vy x - r_y P j) / cell_h P))) by (auto; intros k; reflexivity).
    unfold rhat. rewrite (around_near (fun d => tent (d / cell_w P))) by (auto using tent_off). reflexivity.
  Qed.
  Lemma tie_ghat x a i j : in_dom P x -> (i < nx P - 1)%nat -> tie (ghat P x a) (j * nx P + i) = rghat P x a i j.
  Proof.
    intros [HX _] Hi. destruct a.
    - rewrite (tie_prod (fun i => slope ((vx x - r_x P i) / cell_w P) / cell_w P) (fun j => tent ((vy x - r_y P j) / cell_h P))) by (auto; intros k; reflexivity).
      unfold rghat. rewrite (around_near (fun d => slope (d / cell_w P) / cell_w P)) by (auto using slope_off). reflexivity.
    - rewrite (tie_prod (fun i => tent ((vx x - r_x P i) / cell_w P)) (fun j => slope ((vy x - r_y P j) / cell_h P) / cell_h P)) by (auto; intros k; reflexivity).
      unfold rghat. rewrite (around_near (fun d => tent (d / cell_w P))) by (auto using tent_off). reflexivity.
    - unfold tie, rghat. cbn [ghat]. destruct (Nat.eqb _ _); [|destruct (Nat.eqb _ _)]; ring.
  Qed.

  (** make_cyclic ties. *)
  Lemma cyc_tie {A} (add : A -> A -> A) (d : A) (c : A -> R) (l l' : list A) : (forall a b, c (add a b) = c a + c b) ->
    length l = nodes P -> cyc add (nx P) l = Ok l' ->
    length l' = nodes P /\ forall k, (k < nodes P)%nat -> c (nth k l' d) = tie (fun k => c (nth k l d)) k.
  Proof.
    intros Hc Hl E. destruct (p_C09_make_cyclic A add d (nx P) (ny P) l Hn Hl) as (l1 & E1 & L1 & A1 & A2).
    rewrite E in E1. injection E1 as <-. split; [exact L1|]. intros k Hk.
    pose proof (row_lt k Hk) as Hr. destruct (A1 _ Hr) as [B1 B2]. pose proof (node_eq k) as EK. unfold tie.
    destruct (Nat.eqb_spec (k mod nx P) 0) as [C|C].
    - replace (k / nx P * nx P)%nat with k in * by lia. rewrite B1, Hc. reflexivity.
    - destruct (Nat.eqb_spec (k mod nx P) (nx P - 1)) as [D|D].
      + replace (k / nx P * nx P + (nx P - 1))%nat with k in * by lia. replace (k / nx P * nx P)%nat with (k - (nx P - 1))%nat in * by lia.
        rewrite B2, Hc. reflexivity.
      + rewrite A2 by assumption. lra.
  Qed.
End Tie.

(** ** The stages of a step with cyclic_lr that succeeded *)
Lemma march_ring uf fill (s s' : state R) : proper (pG (sP s)) -> grid_ok (pG (sP s)) (sG s) ->
  all_live (sL s) (fun _ p => in_dom (pG (sP s)) (px p)) ->
  p_seg (sP s) = false -> cyclic_lr (pB (sP s)) = true ->
  time_march uf fill s = Ok s' ->
  let P := sP s <| p_loads := uf (sP s) |> in let Pg := pG (sP s) in
  exists S0 L1 L3 L4 L5 G1 Gc G3 G4 Gf G5 G6,
    sol0 (sL s) = Ok S0 /\
    update_forces P (sL s) = Ok L1 /\ Lrel (fun _ p p' => exists b, p' = p <| pb := b |>) (sL s) L1 /\
    Lrel (fun _ p p' => in_dom Pg (px p) /\ p' = locate Pg p) L1 L3 /\
    p2g_all P L3 (wipe (sP s) (sG s)) = Ok G1 /\ frame_all (wipe (sP s) (sG s)) G1 /\
    cyc_mq P G1 = Ok Gc /\ Gc = G1 <| gm := gm Gc |> <| gq := gq Gc |> /\
    length (gm G1) = nodes Pg /\ length (gq G1) = nodes Pg /\ length (gm Gc) = nodes Pg /\ length (gq Gc) = nodes Pg /\
    stress_strain P L3 Gc = Ok (L4, G3) /\
    Lrel (fun ph p p' => strained p p' /\ (s_law (ph_sol ph) <> ElasticTime -> pm p' = pm p)) L3 L4 /\ vis_frame Gc G3 /\
    all_live L4 (fun _ p => located Pg p) /\
    force_loop P L4 G3 = Ok G4 /\ f_lens P G3 /\ cyc_forces P G4 = Ok Gf /\ Gf = G4 <| gfi := gfi Gf |> <| gfe := gfe Gf |> /\
    f_lens P G4 /\ BCs P (s_rho S0) Gf = Ok G5 /\ sized Pg Gf /\ sized Pg G5 /\
    update_momentum P G5 = Ok G6 /\
    sP s' = P /\ sG s' = calculate_gammadot fill P G6 /\
    Forall2 (phase_moved P G6) L4 L5 /\ inout P L5 = Ok (sL s').
Proof.
  intros HP HG HD Hs Hc E P Pg.
  unfold time_march in E. fold P in E. cbv zeta in E. pbinds E.
  rename a into S0, a0 into L1, a1 into L2, a2 into L3, a4 into G1, a5 into Gc, b into L4, b0 into G3, a6 into Gf, a7 into G5, a8 into G6.
  assert (CP : cyclic_lr (pB P) = true) by exact Hc. rewrite CP in E6.
  assert (SP : p_seg P = false) by exact Hs. rewrite SP in E11. injection E11 as <- <-.
  injection E as <-. cbn [sP sG sL].
  set (G0 := wipe (sP s) (sG s)) in *.
  assert (OK0 : grid_ok Pg G0) by (apply wipe_ok; exact HG).
  assert (R1 : Lrel (fun _ p p' => exists b, p' = p <| pb := b |>) (sL s) L1).
  { eapply points__rel; [|exact E1]. intros k ph p p' _ _ X. injection X as <-. unfold increment_gravity.
    destruct (Nat.eqb k 0); [eauto|]. exists (pb p). destruct p; reflexivity. }
  assert (D1 : all_live L1 (fun _ p => in_dom (pG P) (px p))).
  { eapply Lrel_all_live; [exact R1| |exact HD]. cbv beta. intros ph p ph' p' _ _ _ _ _ [b ->]. auto. }
  pose proof (locate_loops P G0 L1 L2 L3 HP OK0 D1 E2 E3) as R3.
  assert (R3' : Lrel (fun _ p p' => in_dom Pg (px p) /\ p' = locate Pg p) L1 L3).
  { eapply Lrel_impl; [exact R3|]. intros ph p p' Hin Hp ->. split; [apply (D1 ph p Hin Hp)|reflexivity]. }
  assert (PL : p2g_lens P G0) by apply (wipe_lens P (sG s)).
  pose proof (p2g_all_frame P L3 G0 G1 PL E5) as F1.
  destruct (p2g_all_mass P L3 G0 G1 PL E5) as (Lm & _).
  destruct (wipe_frame (sP s) (sG s)) as (WV & Wv & Wh & Wc).
  destruct (p2g_all_mom P L3 G0 G1 PL) as (Lq & _); [unfold G0; rewrite Wv; apply HG|unfold G0; rewrite Wh; apply HG|exact E5|].
  pose proof E6 as E6'. unfold cyc_mq in E6'. pbinds E6'.
  match goal with H : cyc nadd _ _ = Ok ?x, H' : cyc vadd _ _ = Ok ?y |- _ => rename H into EM; rename H' into EQ; rename x into m1; rename y into q1 end.
  assert (FC : Gc = G1 <| gm := gm Gc |> <| gq := gq Gc |>) by (injection E6' as <-; reflexivity).
  assert (LMC : length (gm Gc) = nodes Pg /\ length (gq Gc) = nodes Pg).
  { injection E6' as <-. cbn [gm gq set]. change (nx (pG P)) with (nx Pg) in EM, EQ.
    destruct (p_C09_make_cyclic R nadd 0 (nx Pg) (ny Pg) (gm G1) (proj1 HP) Lm) as (l1 & A1 & A2 & _). rewrite EM in A1. injection A1 as <-.
    destruct (p_C09_make_cyclic _ vadd v0 (nx Pg) (ny Pg) (gq G1) (proj1 HP) Lq) as (l2 & B1 & B2 & _). rewrite EQ in B1. injection B1 as <-.
    split; assumption. }
  destruct LMC as [LMc LQc].
  destruct (stress_strain_rel P L3 Gc L4 G3 E7) as [R4 F3].
  assert (Lo3 : all_live L3 (fun _ p => located Pg p)).
  { eapply (Lrel_all_live _ _ _ _ _ R3); [|exact D1]. cbv beta. intros ? ? ? ? _ _ _ _ _ -> X. apply locate_located; exact X. }
  assert (Lo4 : all_live L4 (fun _ p => located Pg p)).
  { eapply (Lrel_all_live _ _ _ _ _ R4); [|exact Lo3]. cbv beta. intros ? ? ? ? _ _ _ _ _ (X & _). apply strained_located, X. }
  assert (FL : f_lens P G3).
  { unfold f_lens. rewrite F3. cbn. rewrite FC. cbn. rewrite F1. cbn. unfold G0. rewrite wipe_fi, wipe_fe, repeat_length. auto. }
  unfold forces_all in E8. pbinds E8. rewrite CP in E8.
  match goal with H : points_r _ _ _ = Ok ?g |- _ => rename H into E8'; rename g into G4 end.
  destruct (force_loop_spec P L4 G3 G4 FL E8') as (F4 & FL4 & _). unfold frame_f in F4.
  pose proof E8 as E8f. unfold cyc_forces in E8f. pbinds E8f.
  assert (FF : Gf = G4 <| gfi := gfi Gf |> <| gfe := gfe Gf |>) by (injection E8f as <-; reflexivity).
  assert (LFf : length (gfi Gf) = nodes Pg /\ length (gfe Gf) = nodes Pg).
  { injection E8f as <-. cbn [gfi gfe set]. destruct FL4 as [LA LB].
    match goal with H : cyc vadd _ (gfi G4) = Ok ?x, H' : cyc vadd _ (gfe G4) = Ok ?y |- _ => rename H into EI; rename H' into EE end.
    change (nx (pG P)) with (nx Pg) in EI, EE.
    destruct (p_C09_make_cyclic _ vadd v0 (nx Pg) (ny Pg) (gfi G4) (proj1 HP) LA) as (l1 & A1 & A2 & _). rewrite EI in A1. injection A1 as <-.
    destruct (p_C09_make_cyclic _ vadd v0 (nx Pg) (ny Pg) (gfe G4) (proj1 HP) LB) as (l2 & B1 & B2 & _). rewrite EE in B1. injection B1 as <-.
    split; assumption. }
  assert (SZf : sized Pg Gf).
  { unfold sized. change (nx Pg * ny Pg)%nat with (nodes Pg).
    rewrite (proj1 LFf), (proj2 LFf). rewrite FF. cbn [bv bh bconv gm gq gext set]. rewrite F4. cbn [bv bh bconv gm gq gext set]. rewrite F3. cbn [bv bh bconv gm gq gext set].
    rewrite LMc, LQc. rewrite FC. cbn [bv bh bconv gm gq gext set]. rewrite F1. cbn [bv bh bconv gm gq gext set]. unfold G0. rewrite Wv, Wh, Wc.
    rewrite (go_bv _ _ HG), (go_bh _ _ HG), (go_bconv _ _ HG). unfold wipe. destruct (p_seg (sP s)); cbn [gext set];
    rewrite repeat_length; do 7 (split; [reflexivity|]); reflexivity. }
  assert (SZ5 : sized (pG P) G5) by (eapply BCs_sized; [exact SZf|exact E9]).
  exists S0, L1, L3, L4, a9, G1, Gc, G3, G4, Gf, G5, G6.
  assert (MV : Forall2 (phase_moved P G6) L4 a9).
  { apply (move_all_rel P (calculate_gammadot fill P G6) L4 a9); auto.
    - change (length (gm G6) = nodes (pG P)). destruct (um_shape P G5 G6 E10) as [F6 _]. rewrite F6. apply SZ5.
    - change (length (gq G6) = nodes (pG P)). apply (um_q_len P G5 G6 SZ5 E10).
    - change (length (gqd G6) = nodes (pG P)). rewrite (um_qd P G5 G6 E10); apply (rates_len P G5 SZ5).
    - change (length (gV G6) = nodes (pG P)). destruct (um_shape P G5 G6 E10) as [F6 _]. rewrite F6. cbn.
      rewrite (BCs_frame _ _ _ _ E9). cbn. rewrite FF. cbn. rewrite F4. cbn. rewrite F3. cbn. rewrite FC. cbn. rewrite F1. cbn. unfold G0. rewrite WV. apply (go_Vlen _ _ HG). }
  split; [exact E0|]. split; [exact E1|]. split; [exact R1|]. split; [exact R3'|]. split; [exact E5|]. split; [exact F1|].
  split; [exact E6|]. split; [exact FC|]. split; [exact Lm|]. split; [exact Lq|]. split; [exact LMc|]. split; [exact LQc|].
  split; [exact E7|]. split; [exact R4|]. split; [exact F3|]. split; [exact Lo4|]. split; [exact E8'|]. split; [exact FL|].
  split; [exact E8|]. split; [exact FF|]. split; [exact FL4|].
  split; [exact E9|]. split; [exact SZf|]. split; [exact SZ5|]. split; [exact E10|]. split; [reflexivity|]. split; [reflexivity|].
  split; [exact MV|exact E13].
Qed.
