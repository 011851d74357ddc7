(** * Pictures of the grain sizes and of the points: C119, C121, C122. *)
From Coq Require Import ZArith Reals List Bool Arith Lra Lia.
From RecordUpdate Require Import RecordUpdate.
From Verif Require Import State NumR Spec SpecLaws SpecStep LibList LibR ModelGrid ModelConstit ModelParticle ModelMPList
  ModelIntegr ModelMain ModelSave ModelDraw ProofsGrid ProofsMap ProofsP2G ProofsWalls ProofsLaws ProofsHist ProofsStep ProofsPoints Concrete
  ThmMapping ThmLaws ThmStep ThmSift ThmPk ThmGrade ThmFields ThmGeo ThmShown ThmFrac ProofsSave ThmSave ThmDraw.
Import ListNotations.
Local Existing Instance Num_R.
Local Open Scope R_scope.

(** ** C122: what [draw_gsd_grid] shows *)
(** What a picture shows of a number per node: nothing where the node is lighter than [M_tol]. *)
Definition pictured (P : params R) (m a : list R) (D : list (list (option R))) : Prop :=
  gridlike (pG P) D /\ forall i j, (i < nx (pG P))%nat -> (j < ny (pG P))%nat ->
    let k := (j * nx (pG P) + i)%nat in
    cell None D i j = if Rlt_dec (nth k m 0) (p_Mtol P) then None else Some (nth k a 0).

Lemma masked_spec (P : params R) m a D : masked P m a = Ok D -> pictured P m a D.
Proof.
  unfold masked. cbv zeta. set (z := zipw _ m a). intros E. destruct (Nat.eqb_spec (length z) (ny (pG P) * nx (pG P))) as [HL|]; [|discriminate]. injection E as <-.
  assert (B : forall j, (j < ny (pG P))%nat -> (j * nx (pG P) + nx (pG P) <= length z)%nat) by (intros j Hj; rewrite HL; nia).
  split; [split|].
  - rewrite map_length, seq_length. reflexivity.
  - apply Forall_forall. intros r Hr. apply in_map_iff in Hr. destruct Hr as (j & <- & Hj). apply in_seq in Hj. specialize (B j ltac:(lia)).
    rewrite firstn_length, skipn_length. lia.
  - intros i j Hi Hj k. specialize (B j Hj). unfold cell. rewrite nth_map_lt with (d := 0%nat) by (rewrite seq_length; exact Hj).
    rewrite seq_nth by exact Hj. rewrite nth_firstn_lt by exact Hi. rewrite nth_skipn_add. cbn [Nat.add]. fold k.
    assert (K : (k < length z)%nat) by (unfold k; lia). unfold z in *. rewrite zipw_length in K.
    rewrite (zipw_nth _ _ _ _ 0 0 None) by lia. unR. unfold Rltb. destruct (Rlt_dec _ _); reflexivity.
Qed.

(** The first picture shows the mean size and the picture of each size its share, at the nodes that are not lighter than
    [M_tol]; the other nodes are blank in all of them. *)
Lemma p_C122_shown : forall (P : params R) (G : grid R) D Ds, draw_gsd_grid P G = Ok (D, Ds) ->
  pictured P (gm G) (g_sbar G) D /\ length Ds = ns (pG P) /\
  forall c, (c < ns (pG P))%nat -> pictured P (gm G) (map (fun r => nth c r 0) (g_phi G)) (nth c Ds []).
Proof.
  intros P G D Ds E. unfold draw_gsd_grid in E. destruct (masked P (gm G) (g_sbar G)) as [D'|] eqn:EM; [|discriminate]. cbn [bind] in E.
  destruct (mapM _ _) as [Ds'|] eqn:EP; [|discriminate]. cbn [bind] in E. injection E as <- <-. split; [apply masked_spec, EM|].
  assert (K : forall n s l, mapM (fun i => masked P (gm G) (map (fun r => nth i r n0) (g_phi G))) (seq s n) = Ok l -> length l = n /\
    forall c, (c < n)%nat -> pictured P (gm G) (map (fun r => nth (s + c) r 0) (g_phi G)) (nth c l [])).
  { clear. induction n as [|n IH]; intros s l E; cbn [seq mapM] in E; [injection E as <-; split; [reflexivity|intros c Hc; lia]|].
    destruct (masked _ _ _) as [D|] eqn:E1; [|discriminate]. cbn [bind] in E. destruct (mapM _ _) as [l'|] eqn:E2; [|discriminate]. injection E as <-.
    destruct (IH _ _ E2) as [A B]. split; [cbn; congruence|]. intros [|c] Hc.
    - cbn [nth]. rewrite Nat.add_0_r. apply masked_spec, E1.
    - cbn [nth]. replace (s + S c)%nat with (S s + c)%nat by lia. apply B. lia. }
  apply (K _ _ _ EP).
Qed.

(** After a step with segregation, without joined ends, both kinds of pictures can be drawn. *)
Lemma seg_kept uf fill (s s' : state R) : proper (pG (sP s)) -> grid_ok (pG (sP s)) (sG s) -> p_seg (sP s) = true -> cyclic_lr (pB (sP s)) = false ->
  all_live (sL s) (fun _ p => in_dom (pG (sP s)) (px p)) -> time_march uf fill s = Ok s' ->
  exists L3 G1, let P := sP s <| p_loads := uf (sP s) |> in
    Lrel (fun _ p p' => in_dom (pG (sP s)) (px p) /\ exists b, p' = locate (pG (sP s)) (p <| pb := b |>)) (sL s) L3 /\
    p2g_all P L3 (wipe P (sG s)) = Ok G1 /\ sP s' = P /\ gm (sG s') = gm G1 /\ g_sbar (sG s') = g_sbar G1 /\ g_phi (sG s') = g_phi G1.
Proof.
  intros HP HG SEG Hc HD E.
  destruct (march_seg uf fill s s' HP HG HD Hc E) as (S0 & L1 & L3 & L4 & L4s & L5 & G1 & G3 & G4 & G5 & G6 & ES & E1 & R1 & R3 & E2 & F1 & E3 & R4 & F3 & Lo & E4 & FL & E5 & SZ4 & SZ5 & E6 & EP & EG & GR & SN & _).
  set (P := sP s <| p_loads := uf (sP s) |>) in *. exists L3, G1. cbv zeta.
  assert (E4' : forces_all P L4 G3 = Ok G4) by (unfold forces_all; unfold force_loop in E4; rewrite E4; cbn [bind]; change (pB P) with (pB (sP s)); rewrite Hc; reflexivity).
  destruct (forces_frame P L4 G3 G4 HP FL E4') as [F4 _]. unfold frame_f in F4.
  pose proof (BCs_frame _ _ _ _ E5) as F5. unfold force_frame in F5. destruct (um_shape P G5 G6 E6) as [F6 _].
  change (p_seg P) with (p_seg (sP s)) in EG. rewrite SEG in EG.
  destruct (segregate_pk fill P L4 _ L4s _ EG) as (? & ? & _ & _ & _ & _ & C & _ & Cm & _).
  assert (CP : g_phi (sG s') = g_phi G6).
  { clear - EG. unfold segregate in EG. destruct (sol0 L4) as [So|]; [|discriminate EG]. cbn [bind] in EG.
    destruct (s_rho_s So) as [rho|]; [|discriminate EG]. cbn [bind attr] in EG. cbv zeta in EG.
    destruct (calculate_phi_increment P rho _) as [Ga|] eqn:E1; [|discriminate EG]. cbn [bind] in EG.
    destruct (move_grainsize P Ga L4) as [La|]; [|discriminate EG]. cbn [bind] in EG.
    destruct (cyc_fields P [Feta] Ga) as [Gb|] eqn:E2; [|discriminate EG]. cbn [bind] in EG. apply okgp in EG. destruct EG as [_ <-].
    unfold calculate_phi_increment in E1. pbinds E1. apply okg in E1. subst Ga.
    unfold cyc_fields in E2. cbn [foldM] in E2. match type of E2 with bind (bind ?x _) _ = _ => destruct x as [l|]; [|discriminate E2] end.
    cbn [bind] in E2. apply okg in E2. rewrite <- E2. reflexivity. }
  split.
  { eapply Lrel_trans; [exact R1|exact R3|]. cbv beta. intros ph ph' p p1 p2 Hin Hp A B [b ->] [_ ->]. split; [apply (HD ph p Hin Hp)|]. exists b. reflexivity. }
  split; [exact E2|]. split; [exact EP|]. unfold vis_frame in F3.
  rewrite Cm, C, CP. change (gm (calculate_gammadot fill P G6)) with (gm G6). change (g_sbar (calculate_gammadot fill P G6)) with (g_sbar G6).
  rewrite F6. cbn. rewrite F5. cbn. rewrite F4. cbn. rewrite F3. cbn. auto.
Qed.

(** After a step with segregation, when the points hold shares of sizes that add up to one and the ends are not joined: at
    every node that is drawn the pictures of the sizes show shares between zero and one that add up to one, and the picture
    of the mean shows a size between the smallest and the largest. *)
Lemma p_C122_shares : forall uf fill (s s' : state R) D Ds, proper (pG (sP s)) -> grid_ok (pG (sP s)) (sG s) ->
  p_seg (sP s) = true -> cyclic_lr (pB (sP s)) = false -> 0 < p_Mtol (sP s) -> length (gs (pG (sP s))) = ns (pG (sP s)) ->
  all_live (sL s) (fun _ p => in_dom (pG (sP s)) (px p) /\ 0 < pm p /\ fractions (ns (pG (sP s))) (pphi p)) ->
  time_march uf fill s = Ok s' -> draw_gsd_grid (sP s') (sG s') = Ok (D, Ds) ->
  forall i j, (i < nx (pG (sP s)))%nat -> (j < ny (pG (sP s)))%nat ->
  (forall z, cell None D i j = Some z -> forall lo hi, Forall (fun x => lo <= x <= hi) (gs (pG (sP s))) -> lo <= z <= hi) /\
  ((cell None D i j = None /\ Forall (fun D' => cell None D' i j = None) Ds) \/
   exists f, fractions (ns (pG (sP s))) f /\ map (fun D' => cell None D' i j) Ds = map Some f).
Proof.
  intros uf fill s s' D Ds HP HG SEG Hc HT HS HA E ED i j Hi Hj. set (Pg := pG (sP s)) in *.
  assert (HD : all_live (sL s) (fun _ p => in_dom Pg (px p))) by (intros ph p A B; apply (HA ph p A B)).
  destruct (seg_kept uf fill s s' HP HG SEG Hc HD E) as (L3 & G1 & R3 & E2 & EP & Em & Es & Ef). cbv zeta in *.
  destruct (p_C122_shown _ _ _ _ ED) as ([GL P0] & LD & PS).
  assert (EG : pG (sP s') = Pg) by (rewrite EP; reflexivity). assert (ET : p_Mtol (sP s') = p_Mtol (sP s)) by (rewrite EP; reflexivity).
  unfold pictured in PS. rewrite EG in *. specialize (P0 i j Hi Hj). rewrite ET in *. cbv zeta in P0. set (k := (j * nx Pg + i)%nat) in *.
  assert (Hk : (k < nodes Pg)%nat) by (unfold k, nodes; nia).
  assert (H3 : all_live L3 (fun _ p => located (pG (sP s <| p_loads := uf (sP s) |>)) p /\ 0 < pm p /\ fractions (ns Pg) (pphi p))).
  { eapply (Lrel_all_live _ _ _ _ _ R3); [|exact HA]. cbv beta. intros ? ? ? ? _ _ _ _ _ (X & b & ->) (_ & Y & Z).
    split; [apply locate_located; exact X|]. split; [exact Y|exact Z]. }
  destruct (p_C36_nodal_fractions _ L3 (sG s) G1 HP SEG HS H3 E2 k Hk) as [A _].
  rewrite P0. rewrite Em, Es in *. rewrite Ef in *.
  destruct (Rlt_dec (nth k (gm G1) 0) (p_Mtol (sP s))) as [LT|GE].
  - split; [discriminate|]. left. split; [reflexivity|]. apply Forall_forall. intros D' HD'. apply (In_nth _ _ []) in HD'. destruct HD' as (c & Hcl & <-).
    destruct (PS c ltac:(congruence)) as [_ PC]. specialize (PC i j Hi Hj). cbv zeta in PC. fold k in PC. rewrite PC.
    destruct (Rlt_dec _ _); [reflexivity|contradiction].
  - destruct A as (FR & _ & B); [lra|]. split; [intros z Z lo hi HF; injection Z as <-; apply B, HF|]. right.
    exists (nth k (g_phi G1) []). split; [exact FR|]. destruct FR as (FL & _ & F1).
    assert (LP : (k < length (g_phi G1))%nat).
    { destruct (Nat.lt_ge_cases k (length (g_phi G1))) as [X|X]; [exact X|]. rewrite nth_overflow in F1 by exact X. unfold Rsum in F1. cbn in F1. lra. }
    apply (nth_ext _ _ None None); [rewrite !map_length; rewrite LD, FL; reflexivity|]. intros c Hc'. rewrite map_length in Hc'.
    rewrite nth_map_lt with (d := []) by exact Hc'. rewrite nth_map_lt with (d := 0) by (rewrite FL; change (c < ns Pg)%nat; rewrite <- LD; exact Hc').
    destruct (PS c ltac:(rewrite <- LD; exact Hc')) as [_ PC]. specialize (PC i j Hi Hj). cbv zeta in PC. fold k in PC. rewrite PC.
    destruct (Rlt_dec _ _); [contradiction|]. rewrite nth_map_lt with (d := []) by exact LP. reflexivity.
Qed.

(** The pictures can be drawn after any such step. *)
Lemma p_C122_draws : forall uf fill (s s' : state R), proper (pG (sP s)) -> grid_ok (pG (sP s)) (sG s) ->
  p_seg (sP s) = true -> cyclic_lr (pB (sP s)) = false -> length (gs (pG (sP s))) = ns (pG (sP s)) ->
  all_live (sL s) (fun _ p => in_dom (pG (sP s)) (px p) /\ 0 < pm p /\ fractions (ns (pG (sP s))) (pphi p)) ->
  time_march uf fill s = Ok s' -> exists D Ds, draw_gsd_grid (sP s') (sG s') = Ok (D, Ds).
Proof.
  intros uf fill s s' HP HG SEG Hc HS HA E. 
  destruct (p_C115_sizes uf fill s s' HP HG SEG HS HA E) as (T & ET & _).
  destruct (reshape_inv _ _ _ ET) as (LS & _).
  assert (HD : all_live (sL s) (fun _ p => in_dom (pG (sP s)) (px p))) by (intros ph p A B; apply (HA ph p A B)).
  destruct (seg_kept uf fill s s' HP HG SEG Hc HD E) as (L3 & G1 & R3 & E2 & EP & Em & Es & Ef). cbv zeta in *.
  destruct (p2g_all_phi _ L3 _ SEG _ E2) as (L1 & G2 & _ & _ & _ & Ep & Eb).
  assert (LP : length (g_phi (sG s')) = length (g_sbar (sG s'))) by (rewrite Es, Eb, map_length, Ef, Ep; reflexivity).
  destruct (p2g_all_mass _ L3 _ _ (wipe_lens _ _) E2) as (Lm & _). rewrite <- Em in Lm.
  assert (EG : pG (sP s') = pG (sP s)) by (rewrite EP; reflexivity). rewrite EG in LS.
  change (pG (sP s <| p_loads := uf (sP s) |>)) with (pG (sP s)) in Lm. unfold nodes in Lm.
  assert (K : forall a, length a = length (g_sbar (sG s')) -> exists D, masked (sP s') (gm (sG s')) a = Ok D).
  { intros a Ha. unfold masked. cbv zeta. rewrite zipw_length, Ha, LS, Lm, EG, Nat.min_id, (Nat.mul_comm (ny _)), Nat.eqb_refl. eauto. }
  unfold draw_gsd_grid. destruct (K _ eq_refl) as [D ->]. cbn [bind].
  assert (M : forall l, exists Ds, mapM (fun i => masked (sP s') (gm (sG s')) (map (fun r => nth i r n0) (g_phi (sG s')))) l = Ok Ds).
  { induction l as [|c l (Ds & IH)]; [exists []; reflexivity|]. cbn [mapM]. destruct (K (map (fun r => nth c r n0) (g_phi (sG s')))) as [D' ->]; [rewrite map_length; exact LP|].
    cbn [bind]. rewrite IH. cbn [bind]. eauto. }
  destruct (M (seq 0 (ns (pG (sP s'))))) as [Ds ->]. cbn [bind]. eauto.
Qed.
Example x_C122_draws : forall uf fill, exists (s s' : state R) D Ds, proper (pG (sP s)) /\ grid_ok (pG (sP s)) (sG s) /\ 0 < p_Mtol (sP s) /\
  p_seg (sP s) = true /\ cyclic_lr (pB (sP s)) = false /\ length (gs (pG (sP s))) = ns (pG (sP s)) /\
  all_live (sL s) (fun _ p => in_dom (pG (sP s)) (px p) /\ 0 < pm p /\ fractions (ns (pG (sP s))) (pphi p)) /\
  time_march uf fill s = Ok s' /\ draw_gsd_grid (sP s') (sG s') = Ok (D, Ds) /\ length Ds = 2%nat.
Proof.
  intros uf fill. destruct (save_ready uf fill) as (G & s' & EG & OK & D & E).
  assert (HA : all_live (sL (save_case G)) (fun _ p => in_dom (@ex_gridp R _) (px p) /\ 0 < pm p /\ fractions 2 (pphi p))).
  { intros ph p A B. split; [exact (D ph p A B)|]. destruct A as [<-|[]]. cbn in B. unfold fractions.
    repeat (destruct B as [<-|B]; [cbn; unR; (split; [lra|]); (split; [reflexivity|]); split; [repeat constructor; lra|unfold Rsum; cbn; lra]|]). destruct B. }
  destruct (p_C122_draws uf fill (save_case G) s' ex_proper OK eq_refl eq_refl eq_refl HA E) as (D1 & Ds & ED).
  destruct (p_C122_shown _ _ _ _ ED) as (_ & LD & _).
  exists (save_case G), s', D1, Ds. split; [exact ex_proper|]. split; [exact OK|]. split; [cbn; unfold lit; unR; lra|]. split; [reflexivity|]. split; [reflexivity|].
  split; [reflexivity|]. split; [exact HA|]. split; [exact E|]. split; [exact ED|]. rewrite LD.
  destruct (march_any uf fill (save_case G) s' ex_proper OK D E) as (? & ? & ? & ? & ? & _ & _ & _ & _ & -> & _). reflexivity.
Qed.

(** ** C121: which points [draw_gamma_dot] draws *)
(** A coloured place for every live point of every phase that is not rigid, in order, at the point. *)
Lemma p_C121_places : forall (P : params R) (L : list (phase R)),
  let shown := fix sel (L : list (phase R)) := match L with
    | [] => []
    | ph :: L' => match s_law (ph_sol ph) with Rigid => sel L' | _ => ph :: sel L' end end in
  Forall2 (fun ph pic => Forall2 (fun p c => c = (vx (px p), vy (px p), pgammadot p / p_dt P)) (live ph) pic) (shown L) (draw_gamma_dot P L).
Proof.
  intros P L shown. assert (K : forall ph : phase R, Forall2 (fun p c => c = (vx (px p), vy (px p), pgammadot p / p_dt P)) (live ph)
    (map (fun p => (vx (px p), vy (px p), drawn_rate P p)) (firstn (ph_n ph) (ph_pts ph)))).
  { intros ph. change (firstn (ph_n ph) (ph_pts ph)) with (live ph). induction (live ph); [constructor|]. cbn [map]. constructor; [reflexivity|assumption]. }
  unfold draw_gamma_dot. induction L as [|ph L IH]; [constructor|]. cbn [shown filter].
  destruct (s_law (ph_sol ph)); cbn [is_rigid negb]; first [exact IH|cbn [map]; constructor; [apply K|exact IH]].
Qed.
Example x_C121_places : draw_gamma_dot (ex_params (T := R) ex_bounds) [mkPhase (ex_solid Rigid) 1 v0 [ex_p1]; mkPhase (ex_solid Elastic) 1 v0 [ex_p1; ex_p2]] <> [[]].
Proof. intros H. cbn in H. discriminate. Qed.

(** ** C119: the line of the velocity over the height *)
(** The line in the first picture of the viscous laws and the flow laws: for every row of nodes the velocity to the right of
    the node in the middle column, against its height. *)
Lemma p_C119_profile : forall P B (G0 G : grid R), proper P -> grid_init P B = Ok G0 -> length (gq G) = nodes P -> length (gm G) = nodes P ->
  length (profile P G) = ny P /\ forall j, (j < ny P)%nat -> let k := (j * nx P + Nat.div (nx P) 2)%nat in
  nth j (profile P G) (0, 0) = (vx (nth k (gq G) v0) / nth k (gm G) 0, node_y P k) /\ node_x P k = x_m P + INR (Nat.div (nx P) 2) * cell_w P.
Proof.
  intros P B G0 G HP E LQ LM. destruct (made_ok P B G0 HP E) as [K _]. destruct HP as (Hx & Hy & Hxx & Hyy). unfold profile.
  assert (LC : length (column P (zipw (fun q m => (vx q / m)%num) (gq G) (gm G))) = ny P) by (unfold column; rewrite map_length, seq_length; reflexivity).
  split. { rewrite combine_length, LC, linspace_len. lia. }
  intros j Hj. set (k := (j * nx P + Nat.div (nx P) 2)%nat). assert (C : (Nat.div (nx P) 2 < nx P)%nat) by (apply Nat.div_lt; lia).
  assert (Hk : (k < nodes P)%nat) by (unfold k, nodes; nia).
  assert (Ec : col P k = Nat.div (nx P) 2). { unfold col, k. rewrite Nat.add_comm, Nat.mod_add by lia. apply Nat.mod_small, C. }
  assert (Er : row P k = j). { unfold row, k. rewrite Nat.add_comm, Nat.div_add by lia. rewrite Nat.div_small by exact C. reflexivity. }
  split; [|unfold node_x; rewrite Ec; reflexivity].
  rewrite combine_nth by (rewrite LC, linspace_len; reflexivity). f_equal.
  - unfold column. rewrite nth_map_lt with (d := 0%nat) by (rewrite seq_length; exact Hj). rewrite seq_nth by exact Hj. cbn [Nat.add]. fold k.
    rewrite (zipw_nth _ _ _ _ v0 0 0) by lia. reflexivity.
  - rewrite linspace_nth by lia. unfold node_y, cell_h. rewrite Er. reflexivity.
Qed.
Example x_C119_profile : exists (G0 G : grid R), grid_init (T := R) ex_gridp ex_box = Ok G0 /\ proper ex_gridp /\
  length (gq G) = nodes ex_gridp /\ length (gm G) = nodes ex_gridp /\ 0 < nth 2 (gm G) 0.
Proof.
  destruct (grid_init_ok ex_gridp ex_box ex_proper) as (G & E & K).
  exists G, (G <| gq := repeat (mkV3 1 0 0) 12 |> <| gm := repeat 2 12 |>). split; [exact E|]. split; [exact ex_proper|]. split; [reflexivity|]. split; [reflexivity|]. cbn. lra.
Qed.
