(** * Rounding: what the grid gets from the points when every operation is rounded. *)
From Coq Require Import ZArith Reals List Bool Arith Lra Lia.
From RecordUpdate Require Import RecordUpdate.
From Flocq Require Import Core Relative.
From Verif Require Import State NumR NumRd Spec SpecRound LibList LibR ModelGrid ModelConstit ModelParticle ModelMPList ModelMain
  ProofsGrid ProofsMap ProofsP2G ProofsRound ProofsRound2 ProofsRound3 Concrete.
Import ListNotations.
Local Open Scope R_scope.

(** MPM.py:23-26 on a wiped grid, with every operation rounded: points are located, weights computed, mass and
    momentum summed. *)
Definition gathered (rd : R -> R) (P : params R) (G : grid R) (L : list (phase R)) (G' : grid R) : Prop :=
  exists L1 L2, @ref_nodes R (Num_rd rd) P (@wipe R (Num_rd rd) P G) L = Ok L1 /\
    @basis_all R (Num_rd rd) (@wipe R (Num_rd rd) P G) L1 = Ok L2 /\ @p2g_all R (Num_rd rd) P L2 (@wipe R (Num_rd rd) P G) = Ok G'.

(** ** Lines *)
Section Line.
  Context (rd : R -> R) (u : R) (HR : rounding rd u) (a b : R) (n : nat) (Hn : (2 <= n)%nat) (Hab : a < b) (HC : counts rd n) (HE : slip u a b n <= 1 / 32).
  Let h0 := (b - a) / (INR n - 1).
  Let eps := slip u a b n.
  Let Xs := @linspace R (Num_rd rd) a b n.
  Let dx := rd (nth 1 Xs 0 - nth 0 Xs 0).

  Lemma u_eps : 32 * u <= eps.
  Proof.
    pose proof (h0_pos a b n Hn Hab) as Hh. fold h0 in Hh. pose proof (eps_eq u a b n Hn Hab) as E. fold h0 eps in E. pose proof (n_2 n Hn) as N2.
    destruct (B_bounds a b) as (_ & _ & HB). pose proof (W_h0 a b n Hn) as W. fold h0 in W. set (B := Rmax (Rabs a) (Rabs b)) in *. destruct HR as [Hu _].
    apply Rmult_le_reg_r with h0; [exact Hh|]. rewrite <- E.
    assert (h0 <= B * INR n) by nra. assert (u * h0 <= u * (B * INR n)) by (apply Rmult_le_compat_l; lra). lra.
  Qed.

  Lemma line_placed x : a <= x < b - 2 * eps * h0 ->
    exists i, Rtrunc (rd (rd (x - a) / dx)) = Z.of_nat i /\ (S i < n)%nat /\ placed_line eps i (rd (x - nth i Xs 0) / dx) ((x - a) / h0).
  Proof.
    intros Hx. pose proof (h0_pos a b n Hn Hab) as Hh. fold h0 in Hh.
    assert (EP : 0 <= eps) by (exact (eps_pos rd u HR a b n Hn Hab)).
    assert (Hx' : a <= x <= b) by nra.
    pose proof (i_range rd u HR a b n Hn Hab HC HE x Hx') as IR. pose proof (i_cell rd u HR a b n Hn Hab HC HE x Hx') as IC. pose proof (i_weight rd u HR a b n Hn Hab HC HE x Hx') as IW.
    pose proof (dx_bounds rd u HR a b n Hn Hab HC HE) as DB. cbv zeta in IR, IC, IW, DB. fold Xs in IR, IC, IW, DB. fold dx in IR, IC, IW, DB. fold h0 eps in IC, IW, DB.
    set (z := Rtrunc (rd (rd (x - a) / dx))) in *. set (Xi := nth (Z.to_nat z) Xs 0) in *.
    assert (D0 : 0 < dx) by lra.
    assert (AL : - eps <= (x - Xi) / dx <= 1 + eps).
    { assert (Q : (x - Xi) / dx * dx = x - Xi) by (field; lra). split; apply Rmult_le_reg_r with dx; try lra; rewrite Q; lra. }
    exists (Z.to_nat z). assert (Ii : INR (Z.to_nat z) = IZR z) by (rewrite INR_IZR_INZ, Z2Nat.id by lia; reflexivity).
    split; [rewrite Z2Nat.id by lia; reflexivity|]. fold Xi. rewrite <- Ii in IW. apply Rabs_le_inv in IW.
    split.
    - assert (W : b - a = (INR n - 1) * h0) by (exact (W_h0 a b n Hn)).
      assert (S1 : (x - a) / h0 < INR n - 1 - 2 * eps).
      { apply Rmult_lt_reg_r with h0; [exact Hh|]. unfold Rdiv. rewrite Rmult_assoc, Rinv_l by lra. nra. }
      assert (K : INR (S (Z.to_nat z)) < INR n) by (rewrite S_INR; lra). apply INR_lt. exact K.
    - destruct HR as [Hu Hrd]. specialize (Hrd (x - Xi)). pose proof u_eps as UE.
      assert (Q : Rabs (rd (x - Xi) / dx - (x - Xi) / dx) <= eps).
      { replace (rd (x - Xi) / dx - (x - Xi) / dx) with ((rd (x - Xi) - (x - Xi)) * / dx) by (field; lra). rewrite Rabs_mult, Rabs_inv, (Rabs_pos_eq dx) by lra.
        apply Rle_trans with (u * Rabs (x - Xi) * / dx); [apply Rmult_le_compat_r; [apply Rlt_le, Rinv_0_lt_compat; lra|exact Hrd]|].
        assert (EB : eps <= 1 / 32) by exact HE.
        assert (A2 : Rabs (x - Xi) <= 2 * dx) by (apply Rabs_le; split; nra).
        apply Rle_trans with (u * (2 * dx) * / dx); [apply Rmult_le_compat_r; [apply Rlt_le, Rinv_0_lt_compat; lra|apply Rmult_le_compat_l; lra]|].
        replace (u * (2 * dx) * / dx) with (2 * u) by (field; lra). lra. }
      apply Rabs_le_inv in Q. unfold placed_line. repeat split; try lra. apply Rabs_le. lra.
  Qed.
End Line.

(** ** Points *)
Section Points.
  Context (rd : R -> R) (u : R) (HR : rounding rd u) (P : params R) (B : bounds R) (G : grid R).
  Let g := pG P.
  Context (HC : counts rd (nodes g)) (HP : proper g) (HF : resolved u g) (HG : @grid_init R (Num_rd rd) g B = Ok G).
  Let W := @wipe R (Num_rd rd) P G.
  Let Xs := @linspace R (Num_rd rd) (x_m g) (x_M g) (nx g).
  Let Ys := @linspace R (Num_rd rd) (y_m g) (y_M g) (ny g).

  Lemma counts_nx : counts rd (nx g) /\ counts rd (ny g).
  Proof. destruct HP as (H1 & H2 & _). split; intros z Hz; apply HC; unfold nodes; nia. Qed.
  Lemma grid_rd : gdx W = rd (nth 1 Xs 0 - nth 0 Xs 0) /\ gdy W = rd (nth 1 Ys 0 - nth 0 Ys 0) /\ gX W = tile (ny g) Xs /\ gY W = repeat_each (nx g) Ys /\
    gm W = repeat 0 (nodes g) /\ gq W = repeat z3 (nodes g) /\ length (bv W) = length (bv G) /\ bv W = bv G /\ bh W = bh G.
  Proof.
    unfold W, wipe. pose proof HG as K. unfold grid_init in K. fold Xs Ys in K. binds K.
    apply (nth_res_ok _ _ _ 0) in E. apply (nth_res_ok _ _ _ 0) in E0. apply (nth_res_ok _ _ _ 0) in E1. apply (nth_res_ok _ _ _ 0) in E2.
    destruct E as [_ E], E0 as [_ E0], E1 as [_ E1], E2 as [_ E2]. cbv zeta in K. injection K as <-. subst. destruct (p_seg P); cbn; auto 12.
  Qed.

  Definition al (p : particle R) : R := rd (vx (px p) - nth (Z.to_nat (pnstar p)) (gX W) 0) / gdx W.
  Definition be (p : particle R) : R := rd (vy (px p) - nth (Z.to_nat (pnstar p)) (gY W) 0) / gdy W.
  Definition set_up (p p2 : particle R) : Prop :=
    px p2 = px p /\ pm p2 = pm p /\ pv p2 = pv p /\ placed g (slip_x u g) (slip_y u g) al be p2 /\
    forall r, (r < 4)%nat -> within (gain u) (Nr p2 r) (corner_w (al p2) (be p2) r).

  Lemma point_set_up p : clear u g (px p) -> exists p1 p2,
    @get_reference_node R (Num_rd rd) P W p = Ok p1 /\ @get_basis_functions R (Num_rd rd) W p1 = Ok p2 /\ set_up p p2.
  Proof.
    intros [Cx Cy]. destruct HP as (H1 & H2 & H3 & H4). destruct HF as [Fx Fy]. destruct counts_nx as [Kx Ky]. destruct grid_rd as (Dx & Dy & GX & GY & _).
    unfold slip_x, slip_y in *. unfold cell_w in Cx. unfold cell_h in Cy.
    destruct (line_placed rd u HR _ _ _ H1 H3 Kx Fx _ Cx) as (i & Ti & Hi & Li). destruct (line_placed rd u HR _ _ _ H2 H4 Ky Fy _ Cy) as (j & Tj & Hj & Lj).
    fold Xs in Ti, Li. fold Ys in Tj, Lj. rewrite <- Dx in Ti, Li. rewrite <- Dy in Tj, Lj.
    assert (NB : (i + j * nx g < nodes g)%nat) by (unfold nodes; nia).
    assert (N1 : @get_reference_node R (Num_rd rd) P W p = Ok (p <| pnstar := Z.of_nat (i + j * nx g) |>)).
    { unfold get_reference_node. fold g. cbn [nadd nsub nmul ndiv nofZ ntrunc nint Num_rd]. rewrite Ti, Tj. rewrite (Kx (Z.of_nat (nx g))) by lia.
      rewrite <- mult_IZR, HC by (unfold nodes; nia). rewrite <- plus_IZR, HC by (unfold nodes; nia).
      replace (Z.of_nat i + Z.of_nat j * Z.of_nat (nx g))%Z with (Z.of_nat (i + j * nx g)) by lia.
      rewrite Rtrunc_nonneg by (apply IZR_le; lia). rewrite Rfloor_IZR. reflexivity. }
    set (p1 := p <| pnstar := Z.of_nat (i + j * nx g) |>) in *.
    assert (LX : length (gX W) = nodes g) by (rewrite GX; unfold tile; rewrite concat_repeat_len; unfold Xs, linspace; rewrite map_length, seq_length; unfold nodes; lia).
    assert (LY : length (gY W) = nodes g) by (rewrite GY, repeat_each_len; unfold Ys, linspace; rewrite map_length, seq_length; unfold nodes; lia).
    assert (LXs : length Xs = nx g) by (unfold Xs, linspace; rewrite map_length, seq_length; reflexivity).
    assert (LYs : length Ys = ny g) by (unfold Ys, linspace; rewrite map_length, seq_length; reflexivity).
    assert (EX : nth (i + j * nx g) (gX W) 0 = nth i Xs 0).
    { rewrite GX, tile_nth by (rewrite LXs; unfold nodes in NB; lia). rewrite LXs, Nat.mod_add, Nat.mod_small by lia. reflexivity. }
    assert (EY : nth (i + j * nx g) (gY W) 0 = nth j Ys 0).
    { rewrite GY, repeat_each_nth by (rewrite ?LYs; unfold nodes in NB; lia). rewrite Nat.div_add, Nat.div_small by lia. reflexivity. }
    assert (D0 : 0 < gdx W /\ 0 < gdy W).
    { rewrite Dx, Dy. pose proof (dx_bounds rd u HR _ _ _ H1 H3 Kx Fx) as A1. pose proof (dx_bounds rd u HR _ _ _ H2 H4 Ky Fy) as A2.
      pose proof (h0_pos _ _ _ H1 H3). pose proof (h0_pos _ _ _ H2 H4). fold Xs in A1. fold Ys in A2. lra. }
    destruct D0 as [D1 D2].
    exists p1. eexists. split; [exact N1|]. split.
    - unfold get_basis_functions. rewrite (py_get_some (gX W) _ (i + j * nx g) 0) by (rewrite LX; apply pyi_nonneg; exact NB). cbn [bind].
      rewrite (py_get_some (gY W) _ (i + j * nx g) 0) by (rewrite LY; apply pyi_nonneg; exact NB). cbn [bind]. rewrite EX, EY.
      rewrite (surjective_pairing (shape _ _ _)). reflexivity.
    - unfold set_up. cbn [px pm pv pnstar pN]. split; [reflexivity|]. split; [reflexivity|]. split; [reflexivity|]. split.
      + exists i, j. split; [exact Hi|]. split; [exact Hj|]. split; [reflexivity|]. unfold al, be. cbn. rewrite !Nat2Z.id, EX, EY. unfold cell_w, cell_h. split; assumption.
      + intros r Hr. unfold al, be. cbn. rewrite !Nat2Z.id, EX, EY.
        exact (shape_rd rd u HR (gdx W) (gdy W) (mkV3 (rd (vx (px p) - nth i Xs 0)) (rd (vy (px p) - nth j Ys 0)) (rd (vz (px p) - 0))) r D1 D2 Hr).
  Qed.
End Points.

Lemma crowd_rel (P : gridp R) (Q : phase R -> particle R -> particle R -> Prop) L L' k : Lrel Q L L' -> (forall ph p p', Q ph p p' -> px p' = px p) -> crowd P L' k = crowd P L k.
Proof.
  intros H HQ. unfold crowd. induction H as [|ph ph' L L' (_ & _ & _ & F & _) HL IH]; cbn [flat_map]; [reflexivity|]. rewrite !filter_app, !app_length, IH. f_equal.
  clear - F HQ. induction F as [|p p' l l' H F IH]; cbn [filter]; [reflexivity|]. rewrite (HQ _ _ _ H). destruct (near_node P k (px p)); cbn [length]; rewrite IH; reflexivity.
Qed.

Section Stage.
  Context (rd : R -> R) (u : R) (HR : rounding rd u) (P : params R) (B : bounds R) (G : grid R).
  Let g := pG P.
  Context (HC : counts rd (nodes g)) (HP : proper g) (HF : resolved u g) (HG : @grid_init R (Num_rd rd) g B = Ok G).
  Let W := @wipe R (Num_rd rd) P G.
  Context (L : list (phase R)) (HL : all_live L (fun _ p => clear u g (px p))).
  Let ex := slip_x u g.
  Let ey := slip_y u g.
  Let al0 := al rd P G.
  Let be0 := be rd P G.

  Lemma slips : 0 <= ex <= 1 / 32 /\ 0 <= ey <= 1 / 32.
  Proof.
    destruct HP as (H1 & H2 & H3 & H4). destruct HF as [F1 F2]. 
    pose proof (eps_pos rd u HR _ _ _ H1 H3). pose proof (eps_pos rd u HR _ _ _ H2 H4). unfold ex, ey, slip_x, slip_y in *. auto.
  Qed.

  Lemma stage_rel L1 L2 : @ref_nodes R (Num_rd rd) P W L = Ok L1 -> @basis_all R (Num_rd rd) W L1 = Ok L2 ->
    Lrel (fun _ p p2 => set_up rd u P G p p2) L L2.
  Proof.
    intros H1 H2. unfold ref_nodes in H1. unfold basis_all in H2.
    apply (points__rel _ (fun _ p p1 => @get_reference_node R (Num_rd rd) P W p = Ok p1)) in H1; [|auto].
    apply (points__rel _ (fun _ p p2 => @get_basis_functions R (Num_rd rd) W p = Ok p2)) in H2; [|auto].
    apply (Lrel_trans _ _ _ _ _ _ H1 H2). intros ph ph' p p1 p2 I1 I2 _ _ E1 E2.
    destruct (point_set_up rd u HR P B G HC HP HF HG p (HL ph p I1 I2)) as (q1 & q2 & F1 & F2 & S0). fold W in F1, F2.
    rewrite F1 in E1. injection E1 as <-. rewrite F2 in E2. injection E2 as <-. exact S0.
  Qed.
  Lemma stage_total : enough L -> exists L1 L2, @ref_nodes R (Num_rd rd) P W L = Ok L1 /\ @basis_all R (Num_rd rd) W L1 = Ok L2.
  Proof.
    intros HN.
    destruct (points__total (fun _ _ p => @get_reference_node R (Num_rd rd) P W p) L HN) as [L1 E1].
    { intros k ph p I1 I2. destruct (point_set_up rd u HR P B G HC HP HF HG p (HL ph p I1 I2)) as (q1 & q2 & F1 & _). eauto. }
    exists L1. pose proof E1 as E1'. apply (points__rel _ (fun _ p p1 => @get_reference_node R (Num_rd rd) P W p = Ok p1)) in E1'; [|auto].
    destruct (points__total (fun _ _ p => @get_basis_functions R (Num_rd rd) W p) L1) as [L2 E2].
    { apply (Lrel_enough _ _ _ E1' HN). }
    { intros k ph p I1 I2.
      revert ph p I1 I2. refine (Lrel_all_live _ _ _ (fun _ p => clear u g (px p)) (fun _ p => exists p', @get_basis_functions R (Num_rd rd) W p = Ok p') E1' _ HL).
      intros ph0 p0 ph1 p1 J1 J2 _ _ _ E Hc. destruct (point_set_up rd u HR P B G HC HP HF HG p0 Hc) as (q1 & q2 & F1 & F2 & _). fold W in F1, F2. rewrite F1 in E. injection E as <-. eauto. }
    exists L2. split; assumption.
  Qed.

  Lemma W_lens : lens (nodes g) W.
  Proof. destruct (grid_rd rd P B G HG) as (_ & _ & _ & _ & E1 & E2 & _). fold W g in E1, E2. unfold lens. rewrite E1, E2, !repeat_length. auto. Qed.

  Lemma p2g_all_rd L2 G' : @p2g_all R (Num_rd rd) P L2 W = Ok G' -> exists G1, sums rd (nodes g) (nx g) L2 W G1 /\ gm G' = gm G1 /\
    gq G' = (let q := @mask_y R (Num_rd rd) (bh G1) (@mask_x R (Num_rd rd) (bv G1) (gq G1)) in
             if roughness (pB P) then @mask_y R (Num_rd rd) (bv G1) (@mask_x R (Num_rd rd) (bh G1) q) else q).
  Proof.
    intros H. unfold p2g_all in H. destruct (forM _ _ _ _) as [[L' G1]|e] eqn:E; [|discriminate]. cbn [bind] in H. injection H as <-.
    exists G1. split; [exact (p2g_loop_rd rd P (nodes g) _ _ _ _ _ W_lens E)|]. destruct (p_seg P); split; reflexivity.
  Qed.
End Stage.

(** ** Theorems *)
(** What each node gets.  Every operation is rounded with relative error at most [u], whole numbers up to the number of
    nodes are not; the grid is resolved, and the points keep a rounding away from its right and upper ends.  Then the
    mass of a node is the exact sum of the masses of the points, weighted with the tent function of the node, up to a
    multiple of the mass of the points within two cells of it.  The factor, [blur], depends on how many points are that
    near, not on how many there are, and on how well the grid is resolved: a point that is put into the wrong cell, and
    nodes whose coordinates are rounded, do no further harm. *)
Lemma p_C114_node : forall rd u P B G L G' k c,
  rounding rd u -> counts rd (nodes (pG P)) -> proper (pG P) -> resolved u (pG P) -> @grid_init R (Num_rd rd) (pG P) B = Ok G ->
  all_live L (fun _ p => clear u (pG P) (px p)) -> gathered rd P G L G' -> (k < nodes (pG P))%nat -> (crowd (pG P) L k <= c)%nat ->
  Rabs (nth k (gm G') 0 - psum L (fun _ p => pm p * hat (pG P) (px p) k)) <= blur u (pG P) c 5 * near_sum (pG P) L k (fun _ p => Rabs (pm p)).
Proof.
  intros rd u P B G L G' k c HR HC HP HF HG HL (L1 & L2 & E1 & E2 & E3) Hk Hc.
  pose proof (stage_rel rd u HR P B G HC HP HF HG L HL L1 L2 E1 E2) as RL. destruct (slips rd u HR P HP HF) as [Sx Sy].
  destruct (p2g_all_rd rd P B G HG L2 G' E3) as (G1 & (_ & M & _) & EM & _). rewrite EM, M by exact Hk.
  destruct (grid_rd rd P B G HG) as (_ & _ & _ & _ & Z & _). rewrite Z, nth_repeat_any by exact Hk.
  assert (Hu : 0 <= u <= 1 / 100) by apply HR.
  assert (PL : all_live L2 (fun _ p => placed (pG P) (slip_x u (pG P)) (slip_y u (pG P)) (al rd P G) (be rd P G) p /\ forall r, (r < 4)%nat -> within (gain u) (Nr p r) (corner_w (al rd P G p) (be rd P G p) r))).
  { refine (Lrel_all_live _ _ _ (fun _ _ => True) _ RL _ _); [|red; auto]. intros ph p ph' p' _ _ _ _ _ (_ & _ & _ & A & A') _. auto. }
  pose proof (gain_1 rd u HR) as G1'.
  assert (HB : 1 <= (1 + u) * gain u) by nra.
  pose proof (node_bound rd u HR (pG P) HP _ _ Sx Sy (al rd P G) (be rd P G) L2 (fun ph p H1 H2 => proj1 (PL ph p H1 H2)) (fun _ p => pm p) (put_m rd) _ HB) as NB.
  assert (HPut : all_live L2 (fun ph p => forall r, (r < 4)%nat -> within ((1 + u) * gain u) (put_m rd ph p r) (corner_w (al rd P G p) (be rd P G p) r * pm p))).
  { intros ph p H1 H2 r Hr. unfold put_m. apply (rd_step _ _ HR). rewrite <- (Rmult_1_r (gain u)). apply within_mult; [exact G1'|apply (PL ph p H1 H2); exact Hr|apply within_refl]. }
  specialize (NB HPut k c Hk). rewrite (crowd_rel _ _ _ _ k RL) in NB by (intros ph p p' A; apply A). specialize (NB Hc).
  assert (S1 : psum L (fun _ p => pm p * hat (pG P) (px p) k) = psum L2 (fun _ p => pm p * hat (pG P) (px p) k)).
  { apply (Lrel_psum _ _ _ _ _ RL). intros ph p ph' p' _ _ _ _ _ (A1 & A2 & _). rewrite A1, A2. reflexivity. }
  assert (S2 : near_sum (pG P) L k (fun _ p => Rabs (pm p)) = near_sum (pG P) L2 k (fun _ p => Rabs (pm p))).
  { apply (Lrel_psum _ _ _ _ _ RL). intros ph p ph' p' _ _ _ _ _ (A1 & A2 & _). rewrite A1, A2. reflexivity. }
  rewrite S1, S2. unfold blur, drift. replace ((1 + u) ^ (c + 5) / (1 - u)) with ((1 + u) ^ c * ((1 + u) * gain u)) by (rewrite pow_add; unfold gain; field; lra). exact NB.
Qed.

(** The total: the masses of the nodes add up to those of the points, up to [drift] of them. *)
Lemma p_C114_mass : forall rd u P B G L G' c,
  rounding rd u -> counts rd (nodes (pG P)) -> proper (pG P) -> resolved u (pG P) -> @grid_init R (Num_rd rd) (pG P) B = Ok G ->
  all_live L (fun _ p => clear u (pG P) (px p)) -> gathered rd P G L G' -> (forall k, (k < nodes (pG P))%nat -> (crowd (pG P) L k <= c)%nat) ->
  Rabs (Rsum (gm G') - psum L (fun _ p => pm p)) <=
    drift u c 5 * ((1 + 4 * slip_x u (pG P)) * (1 + 4 * slip_y u (pG P))) * psum L (fun _ p => Rabs (pm p)).
Proof.
  intros rd u P B G L G' c HR HC HP HF HG HL (L1 & L2 & E1 & E2 & E3) Hc.
  pose proof (stage_rel rd u HR P B G HC HP HF HG L HL L1 L2 E1 E2) as RL. destruct (slips rd u HR P HP HF) as [Sx Sy].
  destruct (p2g_all_rd rd P B G HG L2 G' E3) as (G1 & ((LM & _) & M & _) & EM & _).
  destruct (grid_rd rd P B G HG) as (_ & _ & _ & _ & Z & _).
  assert (Hu : 0 <= u <= 1 / 100) by apply HR.
  assert (SM : Rsum (gm G') = fsum (nodes (pG P)) (fun k => acc rd (heap (nodes (pG P)) (nx (pG P)) L2 k (put_m rd)) 0)).
  { rewrite EM, Rsum_fsum, LM. apply fsum_ext. intros k Hk. rewrite M, Z, nth_repeat_any by exact Hk. reflexivity. }
  assert (PL : all_live L2 (fun _ p => placed (pG P) (slip_x u (pG P)) (slip_y u (pG P)) (al rd P G) (be rd P G) p /\ forall r, (r < 4)%nat -> within (gain u) (Nr p r) (corner_w (al rd P G p) (be rd P G p) r))).
  { refine (Lrel_all_live _ _ _ (fun _ _ => True) _ RL _ _); [|red; auto]. intros ph p ph' p' _ _ _ _ _ (_ & _ & _ & A & A') _. auto. }
  pose proof (gain_1 rd u HR) as G1'.
  assert (HB : 1 <= (1 + u) * gain u) by nra.
  assert (HPut : all_live L2 (fun ph p => forall r, (r < 4)%nat -> within ((1 + u) * gain u) (put_m rd ph p r) (corner_w (al rd P G p) (be rd P G p) r * pm p))).
  { intros ph p H1 H2 r Hr. unfold put_m. apply (rd_step _ _ HR). rewrite <- (Rmult_1_r (gain u)). apply within_mult; [exact G1'|apply (PL ph p H1 H2); exact Hr|apply within_refl]. }
  pose proof (total_bound rd u HR (pG P) HP _ _ Sx Sy (al rd P G) (be rd P G) L2 (fun ph p H1 H2 => proj1 (PL ph p H1 H2)) (fun _ p => pm p) (put_m rd) _ HB HPut c) as NB.
  rewrite <- SM in NB.
  assert (S1 : psum L (fun _ p => pm p) = psum L2 (fun _ p => pm p)).
  { apply (Lrel_psum _ _ _ _ _ RL). intros ph p ph' p' _ _ _ _ _ (A1 & A2 & _). rewrite A2. reflexivity. }
  assert (S2 : psum L (fun _ p => Rabs (pm p)) = psum L2 (fun _ p => Rabs (pm p))).
  { apply (Lrel_psum _ _ _ _ _ RL). intros ph p ph' p' _ _ _ _ _ (A1 & A2 & _). rewrite A2. reflexivity. }
  rewrite S1, S2. unfold drift. replace ((1 + u) ^ (c + 5) / (1 - u)) with ((1 + u) ^ c * ((1 + u) * gain u)) by (rewrite pow_add; unfold gain; field; lra).
  apply NB. intros k Hk. rewrite (crowd_rel _ _ _ _ k RL) by (intros ph p p' A; apply A). apply Hc. exact Hk.
Qed.

(** Masses that are not negative give nodes a mass that is negative by no more than the rounding. *)
Lemma p_C114_floor : forall rd u P B G L G' k c,
  rounding rd u -> counts rd (nodes (pG P)) -> proper (pG P) -> resolved u (pG P) -> @grid_init R (Num_rd rd) (pG P) B = Ok G ->
  all_live L (fun _ p => clear u (pG P) (px p) /\ 0 <= pm p) -> gathered rd P G L G' -> (k < nodes (pG P))%nat -> (crowd (pG P) L k <= c)%nat ->
  - (blur u (pG P) c 5 * near_sum (pG P) L k (fun _ p => pm p)) <= nth k (gm G') 0.
Proof.
  intros rd u P B G L G' k c HR HC HP HF HG HL HS Hk Hc.
  pose proof (p_C114_node rd u P B G L G' k c HR HC HP HF HG (fun ph p H1 H2 => proj1 (HL ph p H1 H2)) HS Hk Hc) as A. apply Rabs_le_inv in A.
  assert (S1 : 0 <= psum L (fun _ p => pm p * hat (pG P) (px p) k)).
  { apply psum_nonneg. intros ph p H1 H2. apply Rmult_le_pos; [apply (HL ph p H1 H2)|]. unfold hat. apply Rmult_le_pos; apply tent_01. }
  assert (S2 : near_sum (pG P) L k (fun _ p => Rabs (pm p)) = near_sum (pG P) L k (fun _ p => pm p)).
  { apply psum_ext. intros ph p H1 H2. destruct (near_node (pG P) k (px p)); [|reflexivity]. apply Rabs_pos_eq. apply (HL ph p H1 H2). }
  rewrite S2 in A. lra.
Qed.

(** The component [a] of the momentum of node [k] is not reset at a wall. *)
Definition open_at (P : params R) (G : grid R) (k : nat) (a : axis) : Prop :=
  roughness (pB P) = false /\ match a with AX => nth k (bv G) true = false | AY => nth k (bh G) true = false | AZ => True end.

Lemma mask_rd rd P B G G1 k a : rd 1 = 1 -> @grid_init R (Num_rd rd) (pG P) B = Ok G -> lens (nodes (pG P)) G1 -> bv G1 = bv G -> bh G1 = bh G -> (k < nodes (pG P))%nat -> open_at P G k a ->
  let q := comp a (nth k (@mask_y R (Num_rd rd) (bh G1) (@mask_x R (Num_rd rd) (bv G1) (gq G1))) z3) in
  q = rd (comp a (nth k (gq G1) z3)) \/ q = comp a (nth k (gq G1) z3).
Proof.
  intros R1 HG (_ & LQ) Bv Bh Hk (_ & HO).
  assert (LV : length (bv G) = nodes (pG P) /\ length (bh G) = nodes (pG P)).
  { unfold grid_init in HG. binds HG. cbv zeta in HG. injection HG as <-. cbn. rewrite boundary_v_len, boundary_h_len. auto. }
  destruct LV as [LV LH]. cbv zeta. unfold mask_y, mask_x.
  rewrite (zipw_nth _ _ _ k true z3 z3) by (rewrite ?zipw_length, ?Bh, ?Bv, ?LV, ?LH, ?LQ; lia).
  rewrite (zipw_nth _ _ _ k true z3 z3) by (rewrite ?Bh, ?Bv, ?LV, ?LH, ?LQ; lia). rewrite Bv, Bh.
  destruct a; cbn; auto; unfold open_at in HO; rewrite HO; cbn; rewrite Rminus_0_r, R1, Rmult_1_r; auto.
Qed.

(** The same for momentum: each component of the momentum of a node that is not at a wall. *)
Lemma p_C114_momentum : forall rd u P B G L G' k a c,
  rounding rd u -> counts rd (nodes (pG P)) -> proper (pG P) -> resolved u (pG P) -> @grid_init R (Num_rd rd) (pG P) B = Ok G ->
  all_live L (fun _ p => clear u (pG P) (px p)) -> gathered rd P G L G' -> (k < nodes (pG P))%nat -> (crowd (pG P) L k <= c)%nat -> open_at P G k a ->
  Rabs (comp a (nth k (gq G') (mkV3 0 0 0)) - psum L (fun ph p => pm p * comp a (velocity ph p) * hat (pG P) (px p) k)) <=
    blur u (pG P) c 7 * near_sum (pG P) L k (fun ph p => Rabs (pm p * comp a (velocity ph p))).
Proof.
  intros rd u P B G L G' k a c HR HC HP HF HG HL (L1 & L2 & E1 & E2 & E3) Hk Hc HO.
  pose proof (stage_rel rd u HR P B G HC HP HF HG L HL L1 L2 E1 E2) as RL. destruct (slips rd u HR P HP HF) as [Sx Sy].
  destruct (p2g_all_rd rd P B G HG L2 G' E3) as (G1 & (LN & _ & M & Bv & Bh) & _ & EQ).
  destruct (grid_rd rd P B G HG) as (_ & _ & _ & _ & _ & Z & _ & Wv & Wh). rewrite Wv in Bv. rewrite Wh in Bh.
  assert (R1 : rd 1 = 1). { apply (HC 1%Z). destruct HP as (H1 & H2 & _). unfold nodes. nia. }
  pose proof (mask_rd rd P B G G1 k a R1 HG LN Bv Bh Hk HO) as K. cbv zeta in K. destruct HO as [RO _]. rewrite RO in EQ. cbv zeta in EQ. rewrite <- EQ in K. fold z3.
  rewrite M in K by exact Hk. rewrite Z, nth_repeat_any in K by exact Hk. replace (comp a z3) with 0 in K by (destruct a; reflexivity).
  assert (Hu : 0 <= u <= 1 / 100) by apply HR.
  assert (PL : all_live L2 (fun _ p => placed (pG P) (slip_x u (pG P)) (slip_y u (pG P)) (al rd P G) (be rd P G) p /\ forall r, (r < 4)%nat -> within (gain u) (Nr p r) (corner_w (al rd P G p) (be rd P G p) r))).
  { refine (Lrel_all_live _ _ _ (fun _ _ => True) _ RL _ _); [|red; auto]. intros ph p ph' p' _ _ _ _ _ (_ & _ & _ & A & A') _. auto. }
  pose proof (gain_1 rd u HR) as G1'.
  assert (HB : 1 <= (1 + u) * ((1 + u) * gain u)) by nra.
  set (w := fun (ph : phase R) (p : particle R) => pm p * comp a (velocity ph p)).
  assert (HPut : all_live L2 (fun ph p => forall r, (r < 4)%nat -> within ((1 + u) * ((1 + u) * gain u)) (put_q rd a ph p r) (corner_w (al rd P G p) (be rd P G p) r * w ph p))).
  { intros ph p H1 H2 r Hr. unfold put_q, w. rewrite <- (Rmult_assoc (corner_w _ _ _)). apply (rd_step _ _ HR). rewrite <- (Rmult_1_r ((1 + u) * gain u)). apply within_mult; [nra| |apply within_refl].
    apply (rd_step _ _ HR). rewrite <- (Rmult_1_r (gain u)). apply within_mult; [exact G1'|apply (PL ph p H1 H2); exact Hr|apply within_refl]. }
  pose proof (node_bound rd u HR (pG P) HP _ _ Sx Sy (al rd P G) (be rd P G) L2 (fun ph p H1 H2 => proj1 (PL ph p H1 H2)) w (put_q rd a) _ HB HPut k c Hk) as NB.
  rewrite (crowd_rel _ _ _ _ k RL) in NB by (intros ph p p' A; apply A). specialize (NB Hc).
  assert (S1 : psum L (fun ph p => pm p * comp a (velocity ph p) * hat (pG P) (px p) k) = psum L2 (fun ph p => w ph p * hat (pG P) (px p) k)).
  { apply (Lrel_psum _ _ _ _ _ RL). intros ph p ph' p' _ _ _ _ ES (A1 & A2 & A3 & _). unfold w, velocity. rewrite A1, A2, A3, ES. reflexivity. }
  assert (S2 : near_sum (pG P) L k (fun ph p => Rabs (pm p * comp a (velocity ph p))) = near_sum (pG P) L2 k (fun ph p => Rabs (w ph p))).
  { apply (Lrel_psum _ _ _ _ _ RL). intros ph p ph' p' _ _ _ _ ES (A1 & A2 & A3 & _). unfold w, velocity. rewrite A1, A2, A3, ES. reflexivity. }
  rewrite S1, S2. set (V := acc rd (heap (nodes (pG P)) (nx (pG P)) L2 k (put_q rd a)) 0) in *. set (X := psum L2 (fun ph p => w ph p * hat (pG P) (px p) k)) in *.
  set (A := near_sum (pG P) L2 k (fun ph p => Rabs (w ph p))) in *.
  assert (A0 : 0 <= A) by (apply psum_nonneg; intros ph p _ _; destruct (near_node _ _ _); [apply Rabs_pos|lra]).
  set (ex := slip_x u (pG P)) in *. set (ey := slip_y u (pG P)) in *.
  set (D := (1 + u) ^ c * ((1 + u) * ((1 + u) * gain u))) in *.
  assert (D1 : 1 <= D) by (unfold D; assert (1 <= (1 + u) ^ c) by (apply pow_R1_Rle; lra); nra).
  assert (ED : (1 + u) ^ (c + 7) / (1 - u) = (1 + u) * D) by (rewrite pow_add; unfold D, gain; field; lra).
  unfold blur, drift. fold ex ey. rewrite ED.
  set (F := (1 + 2 * ex) * (1 + 2 * ey)) in *. assert (F1 : 1 + 2 * ex + 2 * ey <= F) by (unfold F; nra).
  assert (N0 : Rabs (V - X) <= ((D - 1) * F + 7 * (ex + ey)) * A) by exact NB.
  assert (MON : ((D - 1) * F + 7 * (ex + ey)) * A <= (((1 + u) * D - 1) * F + 7 * (ex + ey)) * A).
  { apply Rmult_le_compat_r; [exact A0|]. apply Rplus_le_compat_r. apply Rmult_le_compat_r; nra. }
  destruct K as [K|K]; rewrite K; [|lra].
  pose proof HR as HR'. destruct HR as [_ Hrd]. specialize (Hrd V).
  assert (VA : Rabs V <= D * F * A).
  { pose proof (node_abs rd u HR' (pG P) HP _ _ Sx Sy (al rd P G) (be rd P G) L2 (fun ph p H1 H2 => proj1 (PL ph p H1 H2)) w (put_q rd a) _ HB HPut k c Hk) as NA.
    rewrite (crowd_rel _ _ _ _ k RL) in NA by (intros ph p p' Q; apply Q). exact (NA Hc). }
  replace (rd V - X) with ((rd V - V) + (V - X)) by ring. eapply Rle_trans; [apply Rabs_triang|].
  assert (UV : u * Rabs V <= u * (D * F * A)) by (apply Rmult_le_compat_l; lra).
  assert (EE : (((1 + u) * D - 1) * F + 7 * (ex + ey)) * A = ((D - 1) * F + 7 * (ex + ey)) * A + u * (D * F) * A) by ring.
  rewrite EE. lra.
Qed.

(** None of this fails: the points are located, weighted and summed. *)
Lemma p_C114_runs : forall rd u P B G L,
  rounding rd u -> counts rd (nodes (pG P)) -> proper (pG P) -> resolved u (pG P) -> @grid_init R (Num_rd rd) (pG P) B = Ok G ->
  all_live L (fun _ p => clear u (pG P) (px p)) -> enough L -> p_seg P = false -> exists G', gathered rd P G L G'.
Proof.
  intros rd u P B G L HR HC HP HF HG HL HN HS.
  destruct (stage_total rd u HR P B G HC HP HF HG L HL HN) as (L1 & L2 & E1 & E2).
  pose proof (stage_rel rd u HR P B G HC HP HF HG L HL L1 L2 E1 E2) as RL.
  set (W := @wipe R (Num_rd rd) P G) in *.
  assert (PL : all_live L2 (fun _ p => forall r, (r < 4)%nat -> exists j, pyi (nodes (pG P)) (nearby (pnstar p) r (nx (pG P))) = Some j)).
  { refine (Lrel_all_live _ _ _ (fun _ _ => True) _ RL _ _); [|red; auto]. intros ph p ph' p' _ _ _ _ _ (_ & _ & _ & A & _) _ r Hr. destruct A as (i & j & Hi & Hj & -> & _).
    eexists. apply near_pyi; assumption. }
  pose proof (Lrel_enough _ _ _ RL HN) as HN2.
  enough (K : exists L' G1, forM (fun _ ph G =>
        '(_, G) <- each (ph_n ph) (fun p G => G <- @p2g R (Num_rd rd) P (ph_sv ph) p G ;; Ok (p, G)) (ph_pts ph) G ;;
        Ok (ph, if p_seg P then G <| g_phi := @node_fractions R (Num_rd rd) G |> else G)) 0 L2 W = Ok (L', G1) /\ lens (nodes (pG P)) G1).
  { destruct K as (L' & G1 & E & _). eexists. exists L1, L2. split; [exact E1|]. split; [exact E2|]. fold W. unfold p2g_all. rewrite E. cbn [bind]. rewrite HS. reflexivity. }
  apply forM_total; [exact (W_lens rd P B G HG)|]. intros m ph G0 Hph L0. rewrite HS.
  destruct (each_total (fun p G => G <- @p2g R (Num_rd rd) P (ph_sv ph) p G ;; Ok (p, G)) (lens (nodes (pG P))) (ph_n ph) (ph_pts ph) G0) as (l' & G1 & E & L3).
  - apply HN2. exact Hph.
  - exact L0.
  - intros p G2 Hp L3.
    enough (Q : exists G3, @p2g R (Num_rd rd) P (ph_sv ph) p G2 = Ok G3 /\ lens (nodes (pG P)) G3) by (destruct Q as (G3 & -> & Q2); cbn [bind]; eauto).
    unfold p2g. apply four_total; [exact L3|]. intros r G4 Hr [L4 L5]. destruct (PL ph p Hph Hp r Hr) as [j Ej]. rewrite HS. cbv zeta.
    rewrite (py_upd_some (gm G4) _ j) by (rewrite L4; exact Ej). cbn [bind]. rewrite (py_upd_some (gq G4) _ j) by (rewrite L5; exact Ej). cbn [bind].
    eexists. split; [reflexivity|]. split; cbn; rewrite upd_length; assumption.
  - rewrite E. cbn [bind]. eauto.
Qed.

(** Binary64, rounded to nearest, without overflow and underflow. *)
Definition near64 (x : R) : R := round radix2 (FLX_exp 53) ZnearestE x.
Definition u64 : R := / 2 * bpow radix2 (- 52).

Lemma near64_rounding : rounding near64 u64.
Proof.
  split.
  - unfold u64. assert (0 < bpow radix2 (- 52)) by apply bpow_gt_0.
    assert (bpow radix2 (- 52) <= bpow radix2 (- 6)) by (apply bpow_le; lia). cbn in H0 |- *. cbn in H. lra.
  - intros x. unfold near64, u64. apply (relative_error_N_FLX radix2 53 eq_refl (fun x => negb (Z.even x)) x).
Qed.
Lemma near64_counts n : (Z.of_nat n < 2 ^ 53)%Z -> counts near64 n.
Proof.
  intros Hn z Hz. unfold near64. apply round_generic; [apply valid_rnd_N|].
  apply generic_format_FLX. exists (Float radix2 z 0); [unfold F2R; cbn; lra|]. cbn [Fnum]. rewrite Z.abs_eq by lia. change (radix2 ^ 53)%Z with (2 ^ 53)%Z. lia.
Qed.

Definition round_params : params R := ex_params ex_bounds.
Definition round_L : list (phase R) := [mkPhase (ex_solid Rigid) 2 (mkV3 0 0 0) [ex_particle (1 / 3) (1 / 2) (mkV3 1 0 0) (mkM3 0 0 0 0 0 0 0 0 0); ex_particle 2 (3 / 2) (mkV3 0 1 0) (mkM3 0 0 0 0 0 0 0 0 0)]].

Lemma filter_short {A} (f : A -> bool) l : (length (filter f l) <= length l)%nat.
Proof. induction l as [|a l IH]; cbn; [lia|]. destruct (f a); cbn; lia. Qed.

(** Two points on a grid of four by three nodes, in binary64. *)
Example x_C114_node : exists G G',
  rounding near64 u64 /\ counts near64 (nodes (pG round_params)) /\ proper (pG round_params) /\ resolved u64 (pG round_params) /\
  @grid_init R (Num_rd near64) (pG round_params) ex_bounds = Ok G /\ all_live round_L (fun _ p => clear u64 (pG round_params) (px p) /\ 0 < pm p) /\
  gathered near64 round_params G round_L G' /\ (forall k, (k < nodes (pG round_params))%nat -> (crowd (pG round_params) round_L k <= 2)%nat) /\
  open_at round_params G 5 AX.
Proof.
  assert (HC : counts near64 (nodes (pG round_params))) by (apply near64_counts; reflexivity).
  assert (U : 0 < u64 <= 1 / 100000).
  { unfold u64. assert (0 < bpow radix2 (- 52)) by apply bpow_gt_0. assert (K : bpow radix2 (- 52) <= bpow radix2 (- 20)) by (apply bpow_le; lia). cbn in K. cbn in H |- *. lra. }
  assert (HP : proper (pG round_params)) by (unfold proper; cbn; repeat split; try lia; lra).
  assert (SX : slip_x u64 (pG round_params) = 384 * u64).
  { unfold slip_x, slip. cbn. rewrite Rabs_R0, (Rabs_pos_eq 3) by lra. rewrite Rmax_right by lra. field. }
  assert (SY : slip_y u64 (pG round_params) = 192 * u64).
  { unfold slip_y, slip. cbn. rewrite Rabs_R0, (Rabs_pos_eq 2) by lra. rewrite Rmax_right by lra. field. }
  assert (HF : resolved u64 (pG round_params)) by (unfold resolved; rewrite SX, SY; lra).
  assert (CW : cell_w (pG round_params) = 1) by (unfold cell_w; cbn; field).
  assert (CH : cell_h (pG round_params) = 1) by (unfold cell_h; cbn; field).
  assert (HL : all_live round_L (fun _ p => clear u64 (pG round_params) (px p) /\ 0 < pm p)).
  { intros ph p [<-|[]] Hp. cbn in Hp. destruct Hp as [<-|[<-|[]]]; unfold clear; rewrite SX, SY, CW, CH; cbn; lra. }
  destruct (@grid_init R (Num_rd near64) (pG round_params) ex_bounds) as [G|e] eqn:EG; [|discriminate EG].
  destruct (p_C114_runs near64 u64 round_params ex_bounds G round_L near64_rounding HC HP HF EG) as [G' HG'].
  { intros ph p H1 H2. apply (HL ph p H1 H2). }
  { intros ph [<-|[]]. cbn. lia. }
  { reflexivity. }
  exists G, G'. split; [exact near64_rounding|]. split; [exact HC|]. split; [exact HP|]. split; [exact HF|]. split; [reflexivity|]. split; [exact HL|]. split; [exact HG'|]. split.
  - intros k _. unfold crowd. eapply Nat.le_trans; [apply filter_short|]. cbn. lia.
  - split; [reflexivity|]. unfold grid_init in EG. binds EG. cbv zeta in EG. injection EG as <-. reflexivity.
Qed.
