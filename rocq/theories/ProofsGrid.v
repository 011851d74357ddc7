(** * Proofs about the grid: node coordinates, shape functions, cells. *)
From Coq Require Import ZArith Reals List Bool Arith Lra Lia.
From Verif Require Import State NumR Spec LibList LibR ModelGrid ModelConstit ModelParticle.
Import ListNotations.
Local Open Scope R_scope.

Ltac unR := cbn [n0 n1 nadd nsub nmul ndiv nopp nabs nsqrt nsign nmin nmax nltb nleb neqb nofZ
                 ntrunc nint npow nsin ncos ntan natan nlog nan0 nfin nmod Num_R] in *.

(** ** List layout *)
Lemma concat_repeat_len {A} (l : list A) n : length (concat (repeat l n)) = (n * length l)%nat.
Proof. induction n; simpl; auto. rewrite app_length, IHn. auto. Qed.
Lemma tile_nth {A} (l : list A) n k d : (k < n * length l)%nat ->
  nth k (tile n l) d = nth (k mod length l) l d.
Proof.
  unfold tile. revert k; induction n; simpl; intros; [lia|].
  destruct (Nat.lt_ge_cases k (length l)).
  - rewrite app_nth1 by auto. rewrite Nat.mod_small; auto.
  - rewrite app_nth2 by auto. rewrite IHn by lia. f_equal.
    replace k with (k - length l + 1 * length l)%nat at 2 by lia.
    rewrite Nat.mod_add; auto. lia.
Qed.
Lemma repeat_each_len {A} (l : list A) n : length (repeat_each n l) = (length l * n)%nat.
Proof. unfold repeat_each. induction l; simpl; auto. rewrite app_length, repeat_length, IHl. auto. Qed.
Lemma repeat_each_nth {A} (l : list A) n k d : (n <> 0)%nat -> (k < length l * n)%nat ->
  nth k (repeat_each n l) d = nth (k / n) l d.
Proof.
  intros Hn. unfold repeat_each. revert k; induction l; simpl; intros; [lia|].
  destruct (Nat.lt_ge_cases k n).
  - rewrite app_nth1 by (rewrite repeat_length; auto).
    rewrite nth_repeat_any by auto. rewrite Nat.div_small; auto.
  - rewrite app_nth2 by (rewrite repeat_length; auto). rewrite repeat_length, IHl by lia.
    replace k with (k - n + 1 * n)%nat at 2 by lia.
    rewrite Nat.div_add by auto. rewrite Nat.add_1_r. reflexivity.
Qed.

Lemma linspace_len (a b : R) n : length (linspace a b n) = n.
Proof. unfold linspace. rewrite map_length, seq_length. auto. Qed.
Lemma linspace_nth (a b : R) n i : (i < n)%nat ->
  nth i (linspace a b n) 0 = a + INR i * ((b - a) / (INR n - 1)).
Proof.
  intros. unfold linspace. rewrite nth_map_lt with (d := 0%nat) by (rewrite seq_length; auto).
  rewrite nth_seq0 by auto. unR. rewrite <- INR_IZR_INZ, minus_IZR, <- INR_IZR_INZ. reflexivity.
Qed.

(** ** The constructed grid *)
Record grid_ok (P : gridp R) (G : grid R) : Prop := {
  go_dx : gdx G = cell_w P;
  go_dy : gdy G = cell_h P;
  go_Xlen : length (gX G) = nodes P;
  go_Ylen : length (gY G) = nodes P;
  go_X : forall k, (k < nodes P)%nat -> nth k (gX G) 0 = node_x P k;
  go_Y : forall k, (k < nodes P)%nat -> nth k (gY G) 0 = node_y P k;
  go_Vlen : length (gV G) = nodes P;
  go_bv : length (bv G) = nodes P;
  go_bh : length (bh G) = nodes P;
  go_btot : length (btot G) = nodes P;
  go_bconv : length (bconv G) = nodes P }.

Lemma mark_len a b s c m : length (mark a b s c m) = length m.
Proof. unfold mark. destruct c; auto. apply map_slice_length. Qed.
Lemma boundary_v_len {T} (P : gridp T) B : length (boundary_v P B) = nodes P.
Proof. unfold boundary_v. rewrite !mark_len. apply repeat_length. Qed.
Lemma boundary_h_len {T} (P : gridp T) B : length (boundary_h P B) = nodes P.
Proof. unfold boundary_h. rewrite !mark_len. apply repeat_length. Qed.
Lemma boundary_conv_len {T} (P : gridp T) B : length (boundary_conv P B) = nodes P.
Proof. unfold boundary_conv. rewrite !mark_len. apply repeat_length. Qed.
Lemma weighting_len {T} `{Num T} (P : gridp T) B : length (weighting P B) = nodes P.
Proof. unfold weighting. destruct (cyclic_lr B); rewrite !map_slice_length; apply repeat_length. Qed.

Lemma cell_w_pos P : proper P -> 0 < cell_w P.
Proof.
  intros (Hx & _ & H & _). unfold cell_w. apply Rdiv_lt_0_compat; [lra|].
  apply le_INR in Hx. simpl in Hx. lra.
Qed.
Lemma cell_h_pos P : proper P -> 0 < cell_h P.
Proof.
  intros (_ & Hx & _ & H). unfold cell_h. apply Rdiv_lt_0_compat; [lra|].
  apply le_INR in Hx. simpl in Hx. lra.
Qed.
Lemma cell_w_span P : proper P -> x_M P - x_m P = (INR (nx P) - 1) * cell_w P.
Proof.
  intros (Hx & _). unfold cell_w. field. apply le_INR in Hx. simpl in Hx. lra.
Qed.
Lemma cell_h_span P : proper P -> y_M P - y_m P = (INR (ny P) - 1) * cell_h P.
Proof.
  intros (_ & Hx & _). unfold cell_h. field. apply le_INR in Hx. simpl in Hx. lra.
Qed.

Lemma grid_init_ok P B : proper P -> exists G, grid_init P B = Ok G /\ grid_ok P G.
Proof.
  intros HP. pose proof HP as (Hx & Hy & _).
  unfold grid_init.
  rewrite (nth_res_lt (linspace (x_m P) (x_M P) (nx P)) 1 0) by (rewrite linspace_len; lia).
  rewrite (nth_res_lt (linspace (x_m P) (x_M P) (nx P)) 0 0) by (rewrite linspace_len; lia).
  rewrite (nth_res_lt (linspace (y_m P) (y_M P) (ny P)) 1 0) by (rewrite linspace_len; lia).
  rewrite (nth_res_lt (linspace (y_m P) (y_M P) (ny P)) 0 0) by (rewrite linspace_len; lia).
  cbn [bind]. eexists. split; [reflexivity|].
  constructor; cbn.
  - rewrite !linspace_nth by lia. simpl. unfold cell_w. lra.
  - rewrite !linspace_nth by lia. simpl. unfold cell_h. lra.
  - unfold tile. rewrite concat_repeat_len, linspace_len. unfold nodes. lia.
  - rewrite repeat_each_len, linspace_len. unfold nodes. lia.
  - intros. unfold nodes in H. rewrite tile_nth by (rewrite linspace_len; lia).
    rewrite linspace_len. rewrite linspace_nth; [reflexivity|]. apply Nat.mod_upper_bound. lia.
  - intros. unfold nodes in H. rewrite repeat_each_nth by (rewrite ?linspace_len; lia).
    rewrite linspace_nth; [reflexivity|]. apply Nat.div_lt_upper_bound; lia.
  - unfold volume. rewrite map_length. apply weighting_len.
  - apply boundary_v_len.
  - apply boundary_h_len.
  - rewrite zipw_length, boundary_v_len, boundary_h_len. lia.
  - apply boundary_conv_len.
Qed.

(** ** Shape functions *)
Definition wN dx dy (x : V3 R) r : R := nth r (fst (shape dx dy x)) 0.
Definition wG dx dy (x : V3 R) r : V3 R := nth r (snd (shape dx dy x)) v0.

Lemma shape_unity dx dy x : dx <> 0 -> dy <> 0 ->
  fsum 4 (wN dx dy x) = 1.
Proof. intros. unfold wN. cbn. field. auto. Qed.
Lemma shape_grad_zero dx dy x a : dx <> 0 -> dy <> 0 ->
  fsum 4 (fun r => comp a (wG dx dy x r)) = 0.
Proof. intros. unfold wG. destruct a; cbn; field; auto. Qed.
Lemma shape_position dx dy x : dx <> 0 -> dy <> 0 ->
  fsum 4 (fun r => wN dx dy x r * fst (corner dx dy r)) = vx x /\
  fsum 4 (fun r => wN dx dy x r * snd (corner dx dy r)) = vy x.
Proof. intros. unfold wN. cbn. split; field; auto. Qed.
Lemma shape_grad_id dx dy x : dx <> 0 -> dy <> 0 ->
  fsum 4 (fun r => vx (wG dx dy x r) * fst (corner dx dy r)) = 1 /\
  fsum 4 (fun r => vx (wG dx dy x r) * snd (corner dx dy r)) = 0 /\
  fsum 4 (fun r => vy (wG dx dy x r) * fst (corner dx dy r)) = 0 /\
  fsum 4 (fun r => vy (wG dx dy x r) * snd (corner dx dy r)) = 1.
Proof. intros. unfold wG. cbn. repeat split; field; auto. Qed.
Lemma shape_kronecker dx dy r s : dx <> 0 -> dy <> 0 -> (r < 4)%nat -> (s < 4)%nat ->
  forall z, wN dx dy (mkV3 (fst (corner dx dy r)) (snd (corner dx dy r)) z) s =
  if Nat.eqb r s then 1 else 0.
Proof.
  intros. unfold wN.
  do 4 (destruct r as [|r]; [do 4 (destruct s as [|s]; [cbn; field; auto|]); lia|]). lia.
Qed.
Lemma shape_bounds dx dy x r : 0 < dx -> 0 < dy ->
  0 <= vx x <= dx -> 0 <= vy x <= dy -> 0 <= wN dx dy x r <= 1.
Proof.
  intros Hx Hy [A1 A2] [B1 B2].
  assert (D : 0 < dx * dy) by (apply Rmult_lt_0_compat; auto).
  assert (H : forall u v, 0 <= u <= dx -> 0 <= v <= dy -> 0 <= u * v / (dx * dy) <= 1).
  { intros u v Hu Hv. split.
    - apply Rmult_le_pos; [apply Rmult_le_pos; lra|]. left. apply Rinv_0_lt_compat; auto.
    - apply Rmult_le_reg_r with (dx * dy); auto. unfold Rdiv.
      rewrite Rmult_assoc, Rinv_l by lra. rewrite Rmult_1_r, Rmult_1_l.
      apply Rmult_le_compat; lra. }
  unfold wN. do 4 (destruct r as [|r]; [cbn; apply H; lra|]). simpl. destruct r; lra.
Qed.

(** The four weights are the products of tents centred at the corners. *)
Lemma tent_left t : 0 <= t <= 1 -> tent t = 1 - t.
Proof. intros. unfold tent. rewrite Rabs_right by lra. rewrite Rmax_right; lra. Qed.
Lemma tent_right t : -1 <= t <= 0 -> tent t = 1 + t.
Proof. intros. unfold tent. rewrite Rabs_left1 by lra. rewrite Rmax_right; lra. Qed.
Lemma tent_far t : t <= -1 \/ 1 <= t -> tent t = 0.
Proof.
  intros. unfold tent. apply Rmax_left.
  destruct H; [rewrite Rabs_left1 | rewrite Rabs_right]; lra.
Qed.
Lemma tent_nonneg t : 0 <= tent t.
Proof. apply Rmax_l. Qed.

Lemma shape_tent dx dy x r : 0 < dx -> 0 < dy ->
  0 <= vx x <= dx -> 0 <= vy x <= dy -> (r < 4)%nat ->
  wN dx dy x r = tent ((vx x - fst (corner dx dy r)) / dx) * tent ((vy x - snd (corner dx dy r)) / dy).
Proof.
  intros Hx Hy A B Hr.
  assert (I1 : forall d a, 0 < d -> 0 <= a <= d -> tent ((a - 0) / d) = 1 - a / d).
  { intros d a Hd Ha. rewrite Rminus_0_r. apply tent_left.
    split; [apply Rmult_le_pos; [lra | left; apply Rinv_0_lt_compat; auto]|].
    apply Rmult_le_reg_r with d; auto. unfold Rdiv. rewrite Rmult_assoc, Rinv_l; lra. }
  assert (I2 : forall d a, 0 < d -> 0 <= a <= d -> tent ((a - d) / d) = a / d).
  { intros d a Hd Ha. replace ((a - d) / d) with (a / d - 1) by (field; lra).
    assert (0 <= a / d <= 1).
    { split; [apply Rmult_le_pos; [lra | left; apply Rinv_0_lt_compat; auto]|].
      apply Rmult_le_reg_r with d; auto. unfold Rdiv. rewrite Rmult_assoc, Rinv_l; lra. }
    rewrite tent_right by lra. lra. }
  unfold wN.
  do 4 (destruct r as [|r]; [cbn -[tent]; rewrite ?I1, ?I2 by auto; field; lra|]). lia.
Qed.

(** ** Reference node *)
Section Cell.
  Context (P : gridp R) (HP : proper P).

  (** Column and row of the cell containing a coordinate. *)
  Definition cell_i (x : R) : nat := Z.to_nat (Rfloor ((x - x_m P) / cell_w P)).
  Definition cell_j (y : R) : nat := Z.to_nat (Rfloor ((y - y_m P) / cell_h P)).

  Lemma cell_i_spec x : x_m P <= x < x_M P ->
    (cell_i x + 1 < nx P)%nat /\
    x_m P + INR (cell_i x) * cell_w P <= x < x_m P + INR (cell_i x + 1) * cell_w P /\
    Z.of_nat (cell_i x) = Rfloor ((x - x_m P) / cell_w P).
  Proof.
    intros [H1 H2]. pose proof (cell_w_pos P HP) as Hw. pose proof (cell_w_span P HP) as Hs.
    set (t := (x - x_m P) / cell_w P) in *.
    assert (T0 : 0 <= t) by (apply Rmult_le_pos; [lra | left; apply Rinv_0_lt_compat; auto]).
    assert (Tx : t * cell_w P = x - x_m P) by (unfold t; field; lra).
    pose proof (Rfloor_bounds t) as [F1 F2].
    assert (Z0 : (0 <= Rfloor t)%Z).
    { assert (IZR 0 < IZR (Rfloor t + 1)) by (rewrite plus_IZR; lra). apply lt_IZR in H. lia. }
    assert (E : Z.of_nat (cell_i x) = Rfloor t) by (unfold cell_i; rewrite Z2Nat.id; auto).
    assert (EI : INR (cell_i x) = IZR (Rfloor t)) by (rewrite INR_IZR_INZ, E; auto).
    rewrite plus_INR, EI. simpl (INR 1).
    split; [|split; [split|auto]].
    - assert (Tn : t < INR (nx P) - 1).
      { apply Rmult_lt_reg_r with (cell_w P); auto. lra. }
      assert (IZR (Rfloor t) < IZR (Z.of_nat (nx P) - 1)).
      { rewrite minus_IZR, <- INR_IZR_INZ. lra. }
      apply lt_IZR in H. lia.
    - assert (IZR (Rfloor t) * cell_w P <= t * cell_w P) by (apply Rmult_le_compat_r; lra). lra.
    - assert (t * cell_w P < (IZR (Rfloor t) + 1) * cell_w P) by (apply Rmult_lt_compat_r; lra). lra.
  Qed.

  Lemma cell_j_spec y : y_m P <= y < y_M P ->
    (cell_j y + 1 < ny P)%nat /\
    y_m P + INR (cell_j y) * cell_h P <= y < y_m P + INR (cell_j y + 1) * cell_h P /\
    Z.of_nat (cell_j y) = Rfloor ((y - y_m P) / cell_h P).
  Proof.
    intros [H1 H2]. pose proof (cell_h_pos P HP) as Hw. pose proof (cell_h_span P HP) as Hs.
    set (t := (y - y_m P) / cell_h P) in *.
    assert (T0 : 0 <= t) by (apply Rmult_le_pos; [lra | left; apply Rinv_0_lt_compat; auto]).
    assert (Tx : t * cell_h P = y - y_m P) by (unfold t; field; lra).
    pose proof (Rfloor_bounds t) as [F1 F2].
    assert (Z0 : (0 <= Rfloor t)%Z).
    { assert (IZR 0 < IZR (Rfloor t + 1)) by (rewrite plus_IZR; lra). apply lt_IZR in H. lia. }
    assert (E : Z.of_nat (cell_j y) = Rfloor t) by (unfold cell_j; rewrite Z2Nat.id; auto).
    assert (EI : INR (cell_j y) = IZR (Rfloor t)) by (rewrite INR_IZR_INZ, E; auto).
    rewrite plus_INR, EI. simpl (INR 1).
    split; [|split; [split|auto]].
    - assert (Tn : t < INR (ny P) - 1).
      { apply Rmult_lt_reg_r with (cell_h P); auto. lra. }
      assert (IZR (Rfloor t) < IZR (Z.of_nat (ny P) - 1)).
      { rewrite minus_IZR, <- INR_IZR_INZ. lra. }
      apply lt_IZR in H. lia.
    - assert (IZR (Rfloor t) * cell_h P <= t * cell_h P) by (apply Rmult_le_compat_r; lra). lra.
    - assert (t * cell_h P < (IZR (Rfloor t) + 1) * cell_h P) by (apply Rmult_lt_compat_r; lra). lra.
  Qed.

  (** Lower left node of the cell of a point and its four corners. *)
  Definition cell_node (x : V3 R) : nat := (cell_j (vy x) * nx P + cell_i (vx x))%nat.
  Definition corner_node (n : nat) (r : nat) : nat :=
    match r with 0 => n | 1 => n + 1 | 2 => n + nx P + 1 | _ => n + nx P end%nat.

  Lemma nearby_corner n r : (r < 4)%nat -> nearby (Z.of_nat n) r (nx P) = Z.of_nat (corner_node n r).
  Proof.
    intros. do 4 (destruct r as [|r]; [simpl; lia|]). lia.
  Qed.

  Lemma node_mod_div i j : (i < nx P)%nat ->
    ((j * nx P + i) mod nx P = i /\ (j * nx P + i) / nx P = j)%nat.
  Proof.
    intros. split.
    - rewrite Nat.add_comm, Nat.mod_add by lia. apply Nat.mod_small; auto.
    - rewrite Nat.add_comm, Nat.div_add by lia. rewrite Nat.div_small; auto.
  Qed.

  Lemma corner_colrow x r : in_dom P x -> (r < 4)%nat ->
    let n := corner_node (cell_node x) r in
    (n < nodes P)%nat /\
    col P n = (cell_i (vx x) + (if orb (Nat.eqb r 1) (Nat.eqb r 2) then 1 else 0))%nat /\
    row P n = (cell_j (vy x) + (if orb (Nat.eqb r 2) (Nat.eqb r 3) then 1 else 0))%nat.
  Proof.
    intros [Hx Hy] Hr. destruct (cell_i_spec _ Hx) as (I & _ & _).
    destruct (cell_j_spec _ Hy) as (J & _ & _).
    set (i := cell_i (vx x)) in *. set (j := cell_j (vy x)) in *.
    assert (Hc : exists di dj, (di <= 1 /\ dj <= 1 /\ corner_node (cell_node x) r = (j + dj) * nx P + (i + di) /\
      di = (if orb (Nat.eqb r 1) (Nat.eqb r 2) then 1 else 0) /\
      dj = (if orb (Nat.eqb r 2) (Nat.eqb r 3) then 1 else 0))%nat).
    { unfold corner_node, cell_node. fold i j.
      do 4 (destruct r as [|r]; [cbn [Nat.eqb orb]; eexists; eexists; repeat split; lia|]). lia. }
    destruct Hc as (di & dj & Hdi & Hdj & E & <- & <-). cbv zeta.
    rewrite E. unfold col, row.
    destruct (node_mod_div (i + di) (j + dj)) as [M D]; [lia|]. rewrite M, D.
    split; auto. unfold nodes.
    assert ((j + dj) * nx P + (i + di) < (j + dj + 1) * nx P)%nat by nia.
    assert ((j + dj + 1) * nx P <= ny P * nx P)%nat by (apply Nat.mul_le_mono_r; lia). lia.
  Qed.

  Lemma corner_in_range x r : in_dom P x -> (r < 4)%nat ->
    pyi (nodes P) (nearby (Z.of_nat (cell_node x)) r (nx P)) = Some (corner_node (cell_node x) r).
  Proof.
    intros. rewrite nearby_corner by auto. apply pyi_nonneg. apply corner_colrow; auto.
  Qed.

  Lemma corner_inj n r s : (r < 4)%nat -> (s < 4)%nat -> corner_node n r = corner_node n s -> r = s.
  Proof.
    intros. destruct HP as (Hx & _). revert H1.
    do 4 (destruct r as [|r]; [do 4 (destruct s as [|s]; [simpl; lia|]); lia|]). lia.
  Qed.

  (** Local coordinates. *)
  Definition loc (x : V3 R) : V3 R :=
    mkV3 (vx x - node_x P (cell_node x)) (vy x - node_y P (cell_node x)) (vz x).

  Lemma cell_node_xy x : in_dom P x ->
    node_x P (cell_node x) = x_m P + INR (cell_i (vx x)) * cell_w P /\
    node_y P (cell_node x) = y_m P + INR (cell_j (vy x)) * cell_h P.
  Proof.
    intros H. destruct (corner_colrow x 0 H) as (_ & C & D); [lia|]. simpl in C, D.
    unfold node_x, node_y. rewrite C, D, !Nat.add_0_r. auto.
  Qed.

  Lemma loc_bounds x : in_dom P x ->
    0 <= vx (loc x) < cell_w P /\ 0 <= vy (loc x) < cell_h P.
  Proof.
    intros H. destruct (cell_node_xy x H) as [EX EY]. destruct H as [Hx Hy].
    destruct (cell_i_spec _ Hx) as (_ & I & _). destruct (cell_j_spec _ Hy) as (_ & J & _).
    unfold loc. simpl. rewrite EX, EY.
    rewrite plus_INR in I, J. simpl (INR 1) in I, J. lra.
  Qed.

  Lemma corner_xy x r : in_dom P x -> (r < 4)%nat ->
    node_x P (corner_node (cell_node x) r) = node_x P (cell_node x) + fst (corner (cell_w P) (cell_h P) r) /\
    node_y P (corner_node (cell_node x) r) = node_y P (cell_node x) + snd (corner (cell_w P) (cell_h P) r).
  Proof.
    intros H Hr. destruct (corner_colrow x r H Hr) as (_ & C & D).
    destruct (cell_node_xy x H) as [EX EY]. rewrite EX, EY.
    unfold node_x, node_y. rewrite C, D.
    do 4 (destruct r as [|r]; [cbn [Nat.eqb orb corner fst snd]; rewrite ?plus_INR; simpl (INR 1); simpl (INR 0); split; lra|]). lia.
  Qed.

  Context (G : grid R) (HG : grid_ok P G).

  Lemma ref_node_spec Pp p : pG Pp = P -> in_dom P (px p) ->
    get_reference_node Pp G p = Ok (set pnstar (fun _ => Z.of_nat (cell_node (px p))) p).
  Proof.
    intros EP H. unfold get_reference_node. rewrite EP, (go_dx _ _ HG), (go_dy _ _ HG). unR.
    destruct H as [Hx Hy].
    destruct (cell_i_spec _ Hx) as (_ & _ & I). destruct (cell_j_spec _ Hy) as (_ & _ & J).
    pose proof (cell_w_pos P HP). pose proof (cell_h_pos P HP).
    rewrite (Rtrunc_nonneg ((vx (px p) - x_m P) / cell_w P))
      by (apply Rmult_le_pos; [lra | left; apply Rinv_0_lt_compat; auto]).
    rewrite (Rtrunc_nonneg ((vy (px p) - y_m P) / cell_h P))
      by (apply Rmult_le_pos; [lra | left; apply Rinv_0_lt_compat; auto]).
    rewrite <- I, <- J, <- mult_IZR, <- plus_IZR.
    rewrite Rtrunc_nonneg by (apply IZR_le; lia). rewrite Rfloor_IZR.
    unfold set. simpl. do 2 f_equal. unfold cell_node. lia.
  Qed.

  Lemma basis_spec p : in_dom P (px p) -> pnstar p = Z.of_nat (cell_node (px p)) ->
    get_basis_functions G p =
    Ok (p <| pN := fst (shape (cell_w P) (cell_h P) (loc (px p))) |>
          <| pGr := snd (shape (cell_w P) (cell_h P) (loc (px p))) |>).
  Proof.
    intros H E. unfold get_basis_functions.
    destruct (corner_colrow (px p) 0 H) as (L0 & _); [lia|]. simpl in L0.
    rewrite (py_get_some (gX G) _ (cell_node (px p)) 0)
      by (rewrite (go_Xlen _ _ HG), E; apply pyi_nonneg; auto).
    rewrite (py_get_some (gY G) _ (cell_node (px p)) 0)
      by (rewrite (go_Ylen _ _ HG), E; apply pyi_nonneg; auto).
    cbn [bind]. rewrite (go_X _ _ HG), (go_Y _ _ HG) by auto.
    rewrite (go_dx _ _ HG), (go_dy _ _ HG). reflexivity.
  Qed.

  (** A located point: node and basis functions computed for its position. *)
  Definition located (p : particle R) : Prop :=
    in_dom P (px p) /\ pnstar p = Z.of_nat (cell_node (px p)) /\
    pN p = fst (shape (cell_w P) (cell_h P) (loc (px p))) /\
    pGr p = snd (shape (cell_w P) (cell_h P) (loc (px p))).

  Lemma located_N p r : located p -> Nr p r = wN (cell_w P) (cell_h P) (loc (px p)) r.
  Proof. intros (_ & _ & E & _). unfold Nr, wN. rewrite E. reflexivity. Qed.
  Lemma located_G p r : located p -> Gr p r = wG (cell_w P) (cell_h P) (loc (px p)) r.
  Proof. intros (_ & _ & _ & E). unfold Gr, wG. rewrite E. reflexivity. Qed.

  (** The hat function at a node is the weight of the matching corner, zero
      elsewhere. *)
  Lemma hat_corner x r : in_dom P x -> (r < 4)%nat ->
    hat P x (corner_node (cell_node x) r) = wN (cell_w P) (cell_h P) (loc x) r.
  Proof.
    intros H Hr. destruct (loc_bounds x H) as [Lx Ly].
    pose proof (cell_w_pos P HP). pose proof (cell_h_pos P HP).
    rewrite shape_tent by (auto; lra).
    unfold hat. destruct (corner_xy x r H Hr) as [EX EY]. rewrite EX, EY.
    unfold loc. cbn [vx vy].
    f_equal; f_equal; f_equal; lra.
  Qed.

  Lemma tent_col_far x n : x_m P <= x < x_M P ->
    (n <> cell_i x)%nat -> (n <> cell_i x + 1)%nat ->
    tent ((x - (x_m P + INR n * cell_w P)) / cell_w P) = 0.
  Proof.
    intros H N1 N2. destruct (cell_i_spec _ H) as (_ & B & _).
    pose proof (cell_w_pos P HP) as W. rewrite plus_INR in B. simpl (INR 1) in B.
    apply tent_far.
    assert (D : (n < cell_i x \/ cell_i x + 2 <= n)%nat) by lia.
    destruct D as [D|D].
    - right. apply Rmult_le_reg_r with (cell_w P); auto. unfold Rdiv. rewrite Rmult_assoc, Rinv_l by lra.
      assert (INR n + 1 <= INR (cell_i x)) by (rewrite <- S_INR; apply le_INR; lia).
      assert ((INR n + 1) * cell_w P <= INR (cell_i x) * cell_w P) by (apply Rmult_le_compat_r; lra). lra.
    - left. apply Rmult_le_reg_r with (cell_w P); auto. unfold Rdiv. rewrite Rmult_assoc, Rinv_l by lra.
      assert (INR (cell_i x) + 2 <= INR n).
      { replace 2 with (INR 2) by reflexivity. rewrite <- plus_INR. apply le_INR; lia. }
      assert ((INR (cell_i x) + 2) * cell_w P <= INR n * cell_w P) by (apply Rmult_le_compat_r; lra). lra.
  Qed.
  Lemma tent_row_far y n : y_m P <= y < y_M P ->
    (n <> cell_j y)%nat -> (n <> cell_j y + 1)%nat ->
    tent ((y - (y_m P + INR n * cell_h P)) / cell_h P) = 0.
  Proof.
    intros H N1 N2. destruct (cell_j_spec _ H) as (_ & B & _).
    pose proof (cell_h_pos P HP) as W. rewrite plus_INR in B. simpl (INR 1) in B.
    apply tent_far.
    assert (D : (n < cell_j y \/ cell_j y + 2 <= n)%nat) by lia.
    destruct D as [D|D].
    - right. apply Rmult_le_reg_r with (cell_h P); auto. unfold Rdiv. rewrite Rmult_assoc, Rinv_l by lra.
      assert (INR n + 1 <= INR (cell_j y)) by (rewrite <- S_INR; apply le_INR; lia).
      assert ((INR n + 1) * cell_h P <= INR (cell_j y) * cell_h P) by (apply Rmult_le_compat_r; lra). lra.
    - left. apply Rmult_le_reg_r with (cell_h P); auto. unfold Rdiv. rewrite Rmult_assoc, Rinv_l by lra.
      assert (INR (cell_j y) + 2 <= INR n).
      { replace 2 with (INR 2) by reflexivity. rewrite <- plus_INR. apply le_INR; lia. }
      assert ((INR (cell_j y) + 2) * cell_h P <= INR n * cell_h P) by (apply Rmult_le_compat_r; lra). lra.
  Qed.

  Lemma hat_far x k : in_dom P x -> (forall r, (r < 4)%nat -> k <> corner_node (cell_node x) r) ->
    hat P x k = 0.
  Proof.
    intros [Hx Hy] N. unfold hat, node_x, node_y.
    destruct (Nat.eq_dec (col P k) (cell_i (vx x))) as [C|C];
    [|destruct (Nat.eq_dec (col P k) (cell_i (vx x) + 1)) as [C'|C']].
    3: { rewrite (tent_col_far _ _ Hx C C'). lra. }
    all: destruct (Nat.eq_dec (row P k) (cell_j (vy x))) as [D|D];
      [|destruct (Nat.eq_dec (row P k) (cell_j (vy x) + 1)) as [D'|D'];
        [|rewrite (tent_row_far _ _ Hy D D'); lra]].
    all: exfalso; assert (E : k = (row P k * nx P + col P k)%nat)
      by (unfold row, col; pose proof (Nat.div_mod k (nx P)); destruct HP; nia).
    - apply (N 0%nat); [lia|]. simpl. unfold cell_node. rewrite E, C, D. lia.
    - apply (N 3%nat); [lia|]. simpl. unfold cell_node. rewrite E, C, D'. nia.
    - apply (N 1%nat); [lia|]. simpl. unfold cell_node. rewrite E, C', D. nia.
    - apply (N 2%nat); [lia|]. simpl. unfold cell_node. rewrite E, C', D'. nia.
  Qed.
End Cell.
