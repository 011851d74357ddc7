(** * Rounding: what the points get back from the grid: C126. *)
From Coq Require Import ZArith Reals List Bool Arith Lra Lia.
From Flocq Require Import Core.
From RecordUpdate Require Import RecordUpdate.
From Verif Require Import State NumR NumRd Spec SpecRound LibList LibR ModelGrid ModelConstit ModelParticle ModelMPList ModelMain
  ProofsGrid ProofsMap ProofsP2G ProofsRound ProofsRound2 ProofsRound3 Concrete ThmRound.
Import ListNotations.
Local Open Scope R_scope.

(** The quantity [fld] of a node per mass of the node; nodes with too little mass count as zero. *)
Definition carried (P : params R) (G : grid R) (fld : list (V3 R)) (a : axis) (k : nat) : R :=
  if Rlt_dec (p_Mtol P) (nth k (gm G) 0) then comp a (nth k fld (mkV3 0 0 0)) / nth k (gm G) 0 else 0.
(** The error of what a point gets from the nodes, relative to the largest of them. *)
Definition astray (u : R) (P : gridp R) : R :=
  drift u 4 7 * ((1 + 4 * slip_x u P) * (1 + 4 * slip_y u P)) + 48 * (slip_x u P + slip_y u P).
(** The point [p2] has the place of [p] and the cell and weights that the rounded program gives a point there. *)
Definition weighed (rd : R -> R) (P : params R) (G : grid R) (p p2 : particle R) : Prop :=
  exists q1 q2, @get_reference_node R (Num_rd rd) P (@wipe R (Num_rd rd) P G) p = Ok q1 /\
    @get_basis_functions R (Num_rd rd) (@wipe R (Num_rd rd) P G) q1 = Ok q2 /\
    px p2 = px p /\ pnstar p2 = pnstar q2 /\ pN p2 = pN q2.

(** ** Weights on a line *)
Lemma part_delta i al c : part_w i al c = (if Nat.eqb c i then 1 - al else 0) + (if Nat.eqb c (S i) then al else 0).
Proof. unfold part_w. destruct (Nat.eqb_spec c i), (Nat.eqb_spec c (S i)); try lia; ring. Qed.
Lemma part_interp n i al (f : nat -> R) : (S i < n)%nat -> fsum n (fun c => part_w i al c * f c) = (1 - al) * f i + al * f (S i).
Proof.
  intros Hi. rewrite (fsum_ext _ _ (fun c => (if Nat.eqb c i then (1 - al) * f i else 0) + (if Nat.eqb c (S i) then al * f (S i) else 0))).
  - rewrite fsum_plus, !fsum_delta by lia. reflexivity.
  - intros c _. rewrite part_delta. destruct (Nat.eqb_spec c i) as [E1|], (Nat.eqb_spec c (S i)) as [E2|]; try rewrite E1; try rewrite E2; try lia; ring.
Qed.
Lemma part_sum n i al s eps : (S i < n)%nat -> 0 <= eps -> placed_line eps i al s -> fsum n (fun c => Rabs (part_w i al c)) <= 1 + 4 * eps.
Proof.
  intros Hi He (A & _). rewrite (fsum_ext _ _ (fun c => (if Nat.eqb c i then Rabs (1 - al) else 0) + (if Nat.eqb c (S i) then Rabs al else 0))).
  - rewrite fsum_plus, !fsum_delta by lia. apply part_all; assumption.
  - intros c _. unfold part_w. destruct (Nat.eqb_spec c i), (Nat.eqb_spec c (S i)); try lia; rewrite ?Rabs_R0; ring.
Qed.
Lemma delta_le n i w : 0 <= w -> fsum n (fun k => if Nat.eqb k i then w else 0) <= w.
Proof.
  intros Hw. destruct (Nat.lt_ge_cases i n) as [L|L]; [rewrite fsum_delta by exact L; lra|]. rewrite fsum_zero; [exact Hw|].
  intros k Hk. destruct (Nat.eqb_spec k i); [lia|reflexivity].
Qed.
Lemma line_diff n i al s eps : (S i < n)%nat -> 0 <= eps <= 1 / 32 -> placed_line eps i al s -> fsum n (fun c => Rabs (part_w i al c - tent (s - INR c))) <= 24 * eps.
Proof.
  intros Hi He (A & B & C). set (w := 6 * eps).
  apply Rle_trans with (fsum n (fun c => (if Nat.eqb c i then w else 0) + (if Nat.eqb c (S i) then w else 0) + (if Nat.eqb c (S (S i)) then w else 0) + (if Nat.eqb c (i - 1) then w else 0))).
  - apply fsum_le. intros c _. pose proof (part_tent i al c s eps He A B C) as T. fold w in T. assert (W0 : 0 <= w) by (unfold w; lra).
    destruct (Nat.eqb_spec c i) as [E1|E1], (Nat.eqb_spec c (S i)) as [E2|E2], (Nat.eqb_spec c (S (S i))) as [E3|E3], (Nat.eqb_spec c (i - 1)) as [E4|E4]; try lra.
    assert (Z : part_w i al c = 0). { rewrite part_delta. apply Nat.eqb_neq in E1, E2. rewrite E1, E2. ring. }
    rewrite Z. assert (ZT : tent (s - INR c) = 0); [|rewrite ZT, Rminus_0_r, Rabs_R0; lra].
    unfold tent, Rmax. destruct (Rle_dec _ _) as [K|]; [|reflexivity]. exfalso. destruct (Nat.lt_ge_cases c i) as [L|L].
    + assert (L2 : (S (S c) <= i)%nat) by lia. apply le_INR in L2. rewrite !S_INR in L2. pose proof (Rle_abs (s - INR c)). lra.
    + assert (L2 : (S (S (S i)) <= c)%nat) by lia. apply le_INR in L2. rewrite !S_INR in L2. pose proof (Rle_abs (- (s - INR c))) as Q. rewrite Rabs_Ropp in Q. lra.
  - assert (W0 : 0 <= w) by (unfold w; lra). rewrite !fsum_plus. pose proof (delta_le n i w W0). pose proof (delta_le n (S i) w W0). pose proof (delta_le n (S (S i)) w W0). pose proof (delta_le n (i - 1) w W0). unfold w in *. lra.
Qed.

(** ** Weights on the grid *)
Section Weights.
  Context (P : gridp R) (HP : proper P) (ex ey : R) (Hex : 0 <= ex <= 1 / 32) (Hey : 0 <= ey <= 1 / 32).
  Context (x : V3 R) (i j : nat) (al be : R) (Hi : (S i < nx P)%nat) (Hj : (S j < ny P)%nat).
  Context (Lx : placed_line ex i al ((vx x - x_m P) / cell_w P)) (Ly : placed_line ey j be ((vy x - y_m P) / cell_h P)).
  Let wx c := part_w i al c.
  Let wy d := part_w j be d.
  Let tx c := tent ((vx x - x_m P) / cell_w P - INR c).
  Let ty d := tent ((vy x - y_m P) / cell_h P - INR d).
  Lemma grid_rows (f : nat -> nat -> R) : fsum (nodes P) (fun k => f (k mod nx P) (k / nx P)%nat) = fsum (ny P) (fun d => fsum (nx P) (fun c => f c d)).
  Proof.
    unfold nodes. rewrite Nat.mul_comm, fsum_rows. apply fsum_ext. intros d Hd. apply fsum_ext. intros c Hc.
    replace (d * nx P + c)%nat with (c + d * nx P)%nat by lia. rewrite Nat.mod_add, Nat.mod_small, Nat.div_add, Nat.div_small by lia. reflexivity.
  Qed.
  Lemma hat_parts k : hat P x k = tx (k mod nx P) * ty (k / nx P)%nat.
  Proof.
    pose proof (cells_pos P HP) as [W H]. unfold hat, node_x, node_y, col, row, tx, ty. rewrite !hat_line by assumption. reflexivity.
  Qed.
  Lemma weights_diff : fsum (nodes P) (fun k => Rabs (wx (k mod nx P) * wy (k / nx P)%nat - hat P x k)) <= 48 * (ex + ey).
  Proof.
    rewrite (fsum_ext _ _ (fun k => Rabs (wx (k mod nx P) * wy (k / nx P)%nat - tx (k mod nx P) * ty (k / nx P)%nat))) by (intros k _; rewrite hat_parts; reflexivity).
    rewrite (grid_rows (fun c d => Rabs (wx c * wy d - tx c * ty d))).
    set (A := fsum (nx P) (fun c => Rabs (wx c))). set (D := fsum (nx P) (fun c => Rabs (wx c - tx c))).
    set (A' := fsum (ny P) (fun d => Rabs (wy d))). set (D' := fsum (ny P) (fun d => Rabs (wy d - ty d))).
    assert (HA : A <= 1 + 4 * ex) by (apply (part_sum _ _ _ _ _ Hi (proj1 Hex) Lx)). assert (HA' : A' <= 1 + 4 * ey) by (apply (part_sum _ _ _ _ _ Hj (proj1 Hey) Ly)).
    assert (HD : D <= 24 * ex) by (apply (line_diff _ _ _ _ _ Hi Hex Lx)). assert (HD' : D' <= 24 * ey) by (apply (line_diff _ _ _ _ _ Hj Hey Ly)).
    assert (A0 : 0 <= A /\ 0 <= D /\ 0 <= A' /\ 0 <= D'). { repeat split; apply fsum_nonneg; intros; apply Rabs_pos. }
    assert (HT : fsum (ny P) ty <= A' + D').
    { unfold A', D'. rewrite <- fsum_plus. apply fsum_le. intros d _. pose proof (Rle_abs (ty d)). pose proof (Rabs_triang (wy d) (- (wy d - ty d))) as T. rewrite Rabs_Ropp in T.
      replace (wy d + - (wy d - ty d)) with (ty d) in T by ring. lra. }
    apply Rle_trans with (fsum (ny P) (fun d => A * Rabs (wy d - ty d) + D * ty d)).
    - apply fsum_le. intros d _. unfold A, D. rewrite <- !fsum_scal_r, <- fsum_plus. apply fsum_le. intros c _.
      replace (wx c * wy d - tx c * ty d) with (wx c * (wy d - ty d) + (wx c - tx c) * ty d) by ring. eapply Rle_trans; [apply Rabs_triang|]. rewrite !Rabs_mult.
      rewrite (Rabs_pos_eq (ty d)) by (apply tent_01). lra.
    - rewrite fsum_plus, !fsum_scal. fold D'. nra.
  Qed.
  (** Interpolation from the corners. *)
  Definition corner (r : nat) : nat := match r with 0 => i + j * nx P | 1 => S i + j * nx P | 2 => S i + S j * nx P | _ => i + S j * nx P end.
  Lemma corner_lt r : (corner r < nodes P)%nat.
  Proof. unfold corner, nodes. destruct r as [|[|[|]]]; nia. Qed.
  Lemma corner_sum (f : nat -> R) : fsum 4 (fun r => corner_w al be r * f (corner r)) = fsum (nodes P) (fun k => wx (k mod nx P) * wy (k / nx P)%nat * f k).
  Proof.
    transitivity (fsum (nodes P) (fun k => (fun c d => wx c * wy d * f (c + d * nx P)%nat) (k mod nx P) (k / nx P)%nat)).
    - rewrite (grid_rows (fun c d => wx c * wy d * f (c + d * nx P)%nat)).
      rewrite (fsum_ext (ny P) _ (fun d => part_w j be d * ((1 - al) * f (i + d * nx P)%nat + al * f (S i + d * nx P)%nat))).
      + rewrite (part_interp (ny P)) by exact Hj. cbn [fsum corner corner_w]. ring.
      + intros d _. unfold wx, wy. rewrite (fsum_ext _ _ (fun c => part_w j be d * (part_w i al c * f (c + d * nx P)%nat))) by (intros; ring). rewrite fsum_scal, (part_interp (nx P)) by exact Hi. reflexivity.
    - apply fsum_ext. intros k Hk. cbv beta. repeat f_equal. assert (N : nx P <> 0%nat) by lia. pose proof (Nat.div_mod k (nx P) N). lia.
  Qed.
  Lemma corner_abs : fsum 4 (fun r => Rabs (corner_w al be r)) <= (1 + 4 * ex) * (1 + 4 * ey).
  Proof.
    destruct Lx as (A & _). destruct Ly as (B & _). pose proof (part_all ex al (proj1 Hex) A) as X. pose proof (part_all ey be (proj1 Hey) B) as Y.
    apply Rle_trans with ((Rabs (1 - al) + Rabs al) * (Rabs (1 - be) + Rabs be)).
    - cbn [fsum corner_w]. rewrite !Rabs_mult. lra.
    - apply Rmult_le_compat; try assumption; pose proof (Rabs_pos (1 - al)); pose proof (Rabs_pos al); pose proof (Rabs_pos (1 - be)); pose proof (Rabs_pos be); lra.
  Qed.
  (** Weights at the corners against the tents. *)
  Lemma corner_hat (f : nat -> R) V : (forall k, (k < nodes P)%nat -> Rabs (f k) <= V) ->
    Rabs (fsum 4 (fun r => corner_w al be r * f (corner r)) - fsum (nodes P) (fun k => hat P x k * f k)) <= 48 * (ex + ey) * V /\
    fsum 4 (fun r => Rabs (corner_w al be r * f (corner r))) <= (1 + 4 * ex) * (1 + 4 * ey) * V.
  Proof.
    intros HV. split.
    - rewrite corner_sum, <- fsum_minus. apply Rle_trans with (fsum (nodes P) (fun k => Rabs (wx (k mod nx P) * wy (k / nx P)%nat - hat P x k) * V)).
      + assert (TR : forall n (g : nat -> R), Rabs (fsum n g) <= fsum n (fun k => Rabs (g k))).
        { induction n as [|n IH]; intros g; cbn [fsum]; [rewrite Rabs_R0; lra|]. eapply Rle_trans; [apply Rabs_triang|]. specialize (IH g). lra. }
        eapply Rle_trans; [apply TR|]. apply fsum_le. intros k Hk. replace (wx (k mod nx P) * wy (k / nx P)%nat * f k - hat P x k * f k) with ((wx (k mod nx P) * wy (k / nx P)%nat - hat P x k) * f k) by ring.
        rewrite Rabs_mult. apply Rmult_le_compat_l; [apply Rabs_pos|apply HV; exact Hk].
      + rewrite fsum_scal_r. apply Rmult_le_compat_r; [|apply weights_diff]. eapply Rle_trans; [apply Rabs_pos|apply (HV (corner 0)), corner_lt].
    - apply Rle_trans with (fsum 4 (fun r => Rabs (corner_w al be r) * V)).
      + apply fsum_le. intros r _. rewrite Rabs_mult. apply Rmult_le_compat_l; [apply Rabs_pos|apply HV, corner_lt].
      + rewrite fsum_scal_r. apply Rmult_le_compat_r; [|apply corner_abs]. eapply Rle_trans; [apply Rabs_pos|apply (HV (corner 0)), corner_lt].
  Qed.
End Weights.

(** ** Sums in rounded arithmetic from any start *)
Section Rd.
  Context (rd : R -> R) (u : R) (HR : rounding rd u).
  Let Hu : 0 <= u <= 1 / 100. Proof. apply HR. Qed.
  Lemma acc_from l a : Rabs (acc rd l a - (a + Rsum l)) <= ((1 + u) ^ length l - 1) * (Rabs a + Rsum (map Rabs l)).
  Proof.
    enough (K : forall l a T B n, Rabs (a - T) <= ((1 + u) ^ n - 1) * B -> Rabs a <= (1 + u) ^ n * B -> 0 <= B ->
      Rabs (acc rd l a - (T + Rsum l)) <= ((1 + u) ^ (n + length l) - 1) * (B + Rsum (map Rabs l))).
    { specialize (K l a a (Rabs a) 0%nat). rewrite Nat.add_0_l in K. apply K; replace (a - a) with 0 by ring; rewrite ?Rabs_R0; cbn; pose proof (Rabs_pos a); lra. }
    clear l a. induction l as [|t l IH]; intros a T B n H1 H2 HB.
    - cbn. rewrite Nat.add_0_r, !Rplus_0_r. exact H1.
    - cbn [acc fold_left length map Rsum fold_right]. fold (acc rd l (rd (a + t))). fold (Rsum l) (Rsum (map Rabs l)).
      replace (n + Datatypes.S (length l))%nat with (Datatypes.S n + length l)%nat by lia. rewrite <- !Rplus_assoc.
      assert (P1 : 1 <= (1 + u) ^ n) by (apply pow_R1_Rle; lra). pose proof (Rabs_pos t) as T0.
      destruct HR as [_ Hrd]. specialize (Hrd (a + t)). pose proof (Rabs_triang a t) as TT. pose proof (Rabs_pos a) as A0.
      assert (U1 : u * Rabs (a + t) <= u * ((1 + u) ^ n * B + Rabs t)) by (apply Rmult_le_compat_l; lra).
      assert (Q : 0 <= u * (((1 + u) ^ n - 1) * Rabs t)) by (repeat apply Rmult_le_pos; lra).
      apply IH; [| |lra].
      + replace (rd (a + t) - (T + t)) with ((rd (a + t) - (a + t)) + (a - T)) by ring. eapply Rle_trans; [apply Rabs_triang|]. cbn [pow]. nra.
      + replace (rd (a + t)) with ((rd (a + t) - (a + t)) + (a + t)) by ring. eapply Rle_trans; [apply Rabs_triang|]. cbn [pow]. nra.
  Qed.
  Lemma abs_sum_nonneg l : 0 <= Rsum (map Rabs l).
  Proof. induction l as [|t l IH]; cbn [map Rsum fold_right]; [lra|]. fold (Rsum (map Rabs l)). pose proof (Rabs_pos t). lra. Qed.
  Lemma acc_from_within g l l' a n : 1 <= g -> (length l' <= n)%nat -> Forall2 (within g) l l' ->
    Rabs (acc rd l a - (a + Rsum l')) <= ((1 + u) ^ n - 1) * Rabs a + ((1 + u) ^ n * g - 1) * Rsum (map Rabs l').
  Proof.
    intros G1 Hn F. destruct (sum_within _ _ _ F) as [S1 S2]. pose proof (acc_from l a) as A. rewrite (Forall2_len _ _ _ F) in A.
    assert (E : (1 + u) ^ length l' <= (1 + u) ^ n) by (apply Rle_pow; [lra|exact Hn]). assert (E1 : 1 <= (1 + u) ^ length l') by (apply pow_R1_Rle; lra).
    pose proof (abs_sum_nonneg l) as N1. pose proof (abs_sum_nonneg l') as N2. pose proof (Rabs_pos a).
    replace (acc rd l a - (a + Rsum l')) with ((acc rd l a - (a + Rsum l)) + (Rsum l - Rsum l')) by ring. eapply Rle_trans; [apply Rabs_triang|].
    set (K := (1 + u) ^ length l') in *. set (M := (1 + u) ^ n) in *.
    assert (A2 : (K - 1) * (Rabs a + Rsum (map Rabs l)) <= (M - 1) * (Rabs a + g * Rsum (map Rabs l'))) by (apply Rmult_le_compat; lra). lra.
  Qed.

  (** ** The loop over the corners *)
  Section Loop.
    Context (P : params R) (HP : proper (pG P)) (Gn : grid R) (Lm : length (gm Gn) = nodes (pG P)) (Lq : length (gq Gn) = nodes (pG P)) (Ld : length (gqd Gn) = nodes (pG P)) (HM : 0 <= p_Mtol P).
    Context (p2 : particle R) (i j : nat) (Hi : (S i < nx (pG P))%nat) (Hj : (S j < ny (pG P))%nat) (Hn : pnstar p2 = Z.of_nat (i + j * nx (pG P))).
    Let g := pG P.
    Let z := mkV3 0 0 0 : V3 R.
    Definition term (N : R) (fld : list (V3 R)) (a : axis) (k : nat) : list R :=
      if Rlt_dec (p_Mtol P) (nth k (gm Gn) 0) then [rd (rd (rd (p_dt P * N) * comp a (nth k fld z)) / nth k (gm Gn) 0)] else [].
    Definition term' (w : R) (fld : list (V3 R)) (a : axis) (k : nat) : list R :=
      if Rlt_dec (p_Mtol P) (nth k (gm Gn) 0) then [p_dt P * (w * carried P Gn fld a k)] else [].
    Definition terms (fld : list (V3 R)) (a : axis) (n : nat) : list R := flat_map (fun r => term (nth r (pN p2) 0) fld a (corner g i j r)) (seq 0 n).
    Definition terms' (w : nat -> R) (fld : list (V3 R)) (a : axis) (n : nat) : list R := flat_map (fun r => term' (w r) fld a (corner g i j r)) (seq 0 n).
    Definition vel_of (p : particle R) (sv : V3 R) : V3 R := match pv p with Own v => v | Shared => sv end.

    Lemma near_corner r : (r < 4)%nat -> pyi (nodes g) (nearby (pnstar p2) r (nx g)) = Some (corner g i j r).
    Proof. intros Hr. rewrite Hn. unfold nodes. apply near_pyi; assumption. Qed.

    Lemma loop sv p' sv' : @move_material_point R (Num_rd rd) P Gn p2 sv = Ok (p', sv') -> forall a,
      comp a (px p') = acc rd (terms (gq Gn) a 4) (comp a (px p2)) /\ comp a (vel_of p' sv') = acc rd (terms (gqd Gn) a 4) (comp a (vel_of p2 sv)).
    Proof.
      intros H a. unfold move_material_point in H. destruct (four _ _ _ (p2, sv)) as [[q s]|e] eqn:E; [|discriminate]. cbn [bind] in H. pbinds H. injection H as <- <-. clear E0.
      enough (K : pN q = pN p2 /\ comp a (px q) = acc rd (terms (gq Gn) a 4) (comp a (px p2)) /\ comp a (vel_of q s) = acc rd (terms (gqd Gn) a 4) (comp a (vel_of p2 sv))) by apply K.
      apply (four_ind P (pnstar p2) _ (fun r t => pN (fst t) = pN p2 /\ comp a (px (fst t)) = acc rd (terms (gq Gn) a r) (comp a (px p2)) /\
        comp a (vel_of (fst t) (snd t)) = acc rd (terms (gqd Gn) a r) (comp a (vel_of p2 sv)))) in E; [exact E|cbn; auto|].
      clear E q s. intros r [q s] t' Hr (J1 & J2 & J3) Hf. cbn [fst snd] in J1, J2, J3.
      assert (TS : forall fld, terms fld a (Datatypes.S r) = terms fld a r ++ term (nth r (pN p2) 0) fld a (corner g i j r)).
      { intros fld. unfold terms. rewrite seq_S, flat_map_app. cbn [flat_map]. rewrite Nat.add_0_l, app_nil_r. reflexivity. }
      rewrite !TS, !acc_app, <- J2, <- J3. pose proof (near_corner r Hr) as PC. fold g in Hf.
      rewrite (py_get_some _ _ (corner g i j r) 0) in Hf by (rewrite Lm; exact PC). cbn [bind] in Hf.
      cbn [nltb Num_rd] in Hf. unfold term. destruct (Rltb _ _) eqn:RL in Hf; [apply Rltb_true in RL|apply Rltb_false in RL]; destruct (Rlt_dec _ _) as [M|M]; try lra.
      - rewrite (py_get_some _ _ (corner g i j r) z) in Hf by (rewrite Lq; exact PC). cbn [bind] in Hf.
        rewrite (py_get_some _ _ (corner g i j r) z) in Hf by (rewrite Ld; exact PC). cbn [bind] in Hf. cbv zeta in Hf.
        injection Hf as <-. unfold Nr. rewrite J1. unfold vel_of. cbn [acc fold_left].
        destruct a; destruct (pv q) eqn:Ev; cbn; rewrite ?Ev, ?J1; cbn; auto.
      - injection Hf as <-. cbn. auto.
    Qed.

    Context (w : nat -> R) (Hw : forall r, (r < 4)%nat -> within (gain u) (nth r (pN p2) 0) (w r)).
    Lemma terms_within fld a : Forall2 (within ((1 + u) ^ 3 * gain u)) (terms fld a 4) (terms' w fld a 4).
    Proof.
      unfold terms, terms'. assert (Q : forall r, In r (seq 0 4) -> (r < 4)%nat) by (intros r Hr; apply in_seq in Hr; lia).
      induction (seq 0 4) as [|r l IH]; cbn [flat_map]; [constructor|]. apply Forall2_app; [|apply IH; intros; apply Q; right; assumption].
      specialize (Hw r (Q r (or_introl eq_refl))). unfold term, term', carried. destruct (Rlt_dec _ _) as [M|M]; [|constructor]. constructor; [|constructor].
      set (m := nth _ (gm Gn) 0) in *. set (qq := comp a _). pose proof (gain_1 rd u HR) as G1.
      replace ((1 + u) ^ 3 * gain u) with ((1 + u) * ((1 + u) * ((1 + u) * gain u))) by ring.
      replace (p_dt P * (w r * (qq / m))) with (p_dt P * w r * qq * / m) by (unfold Rdiv; ring).
      apply (rd_step rd u HR). unfold Rdiv.
      rewrite <- (Rmult_1_r ((1 + u) * _)). apply within_mult; [nra| |apply within_refl].
      apply (rd_step rd u HR). rewrite <- (Rmult_1_r ((1 + u) * _)). apply within_mult; [nra| |apply within_refl].
      apply (rd_step rd u HR). rewrite <- (Rmult_1_l (gain u)). apply within_mult; [lra|apply within_refl|exact Hw].
    Qed.
    Lemma terms'_sum fld a n : Rsum (terms' w fld a n) = p_dt P * fsum n (fun r => w r * carried P Gn fld a (corner g i j r)) /\
      Rsum (map Rabs (terms' w fld a n)) = Rabs (p_dt P) * fsum n (fun r => Rabs (w r * carried P Gn fld a (corner g i j r))) /\ (length (terms' w fld a n) <= n)%nat.
    Proof.
      induction n as [|n (A & B & C)]; [cbn; repeat split; try lra; lia|].
      assert (TS : terms' w fld a (Datatypes.S n) = terms' w fld a n ++ term' (w n) fld a (corner g i j n)).
      { unfold terms'. rewrite seq_S, flat_map_app. cbn [flat_map]. rewrite Nat.add_0_l, app_nil_r. reflexivity. }
      rewrite TS, map_app, !Rsum_app, A, B, app_length. cbn [fsum]. unfold term'.
      destruct (Rlt_dec _ _) as [M|M]; cbn [map Rsum fold_right length].
      - rewrite Rabs_mult. repeat split; [ring|ring|lia].
      - assert (Z : carried P Gn fld a (corner g i j n) = 0) by (unfold carried; destruct (Rlt_dec _ _); [contradiction|reflexivity]). rewrite Z, Rmult_0_r, Rabs_R0. repeat split; [ring|ring|lia].
    Qed.
  End Loop.
End Rd.

(** Moving a point in rounded arithmetic: its place changes by the time step times the mean of the momenta per mass of the
    nodes, weighted by the tents of the true place, and its velocity by the same mean of the forces, up to the stated error. *)
Lemma p_C126_back : forall rd u P B G Gn p p2 sv p' sv' a V A,
  rounding rd u -> counts rd (nodes (pG P)) -> proper (pG P) -> resolved u (pG P) -> @grid_init R (Num_rd rd) (pG P) B = Ok G ->
  clear u (pG P) (px p) -> weighed rd P G p p2 ->
  length (gm Gn) = nodes (pG P) -> length (gq Gn) = nodes (pG P) -> length (gqd Gn) = nodes (pG P) -> 0 <= p_Mtol P -> 0 <= V -> 0 <= A ->
  (forall k, (k < nodes (pG P))%nat -> p_Mtol P < nth k (gm Gn) 0 ->
     Rabs (comp a (nth k (gq Gn) (mkV3 0 0 0))) <= V * nth k (gm Gn) 0 /\ Rabs (comp a (nth k (gqd Gn) (mkV3 0 0 0))) <= A * nth k (gm Gn) 0) ->
  @move_material_point R (Num_rd rd) P Gn p2 sv = Ok (p', sv') ->
  Rabs (comp a (px p') - (comp a (px p) + p_dt P * fsum (nodes (pG P)) (fun k => hat (pG P) (px p) k * carried P Gn (gq Gn) a k)))
    <= ((1 + u) ^ 4 - 1) * Rabs (comp a (px p)) + astray u (pG P) * (Rabs (p_dt P) * V) /\
  Rabs (comp a (vel_of p' sv') - (comp a (vel_of p2 sv) + p_dt P * fsum (nodes (pG P)) (fun k => hat (pG P) (px p) k * carried P Gn (gqd Gn) a k)))
    <= ((1 + u) ^ 4 - 1) * Rabs (comp a (vel_of p2 sv)) + astray u (pG P) * (Rabs (p_dt P) * A).
Proof.
  intros rd u P B G Gn p p2 sv p' sv' a V A HR HC HP HF HG Cl (q1 & q2 & F1 & F2 & X2 & N2 & W2) Lm Lq Ld HM HV HA Hb H.
  destruct (point_set_up rd u HR P B G HC HP HF HG p Cl) as (q1' & q2' & F1' & F2' & X & _ & _ & (i & j & Hi & Hj & En & Px & Py) & Hw).
  rewrite F1 in F1'. injection F1' as <-. rewrite F2 in F2'. injection F2' as <-. rewrite X in Px, Py.
  set (al0 := al rd P G q2) in *. set (be0 := be rd P G q2) in *.
  assert (En2 : pnstar p2 = Z.of_nat (i + j * nx (pG P))) by (rewrite N2; exact En).
  pose proof (slips rd u HR P HP HF) as [SX SY].
  assert (Hu : 0 <= u <= 1 / 100) by apply HR.
  assert (Gen : forall fld a0 U, 0 <= U -> (forall k, (k < nodes (pG P))%nat -> p_Mtol P < nth k (gm Gn) 0 -> Rabs (comp a (nth k fld (mkV3 0 0 0))) <= U * nth k (gm Gn) 0) ->
    Rabs (acc rd (terms rd P Gn p2 i j fld a 4) a0 - (a0 + p_dt P * fsum (nodes (pG P)) (fun k => hat (pG P) (px p) k * carried P Gn fld a k)))
      <= ((1 + u) ^ 4 - 1) * Rabs a0 + astray u (pG P) * (Rabs (p_dt P) * U)).
  { intros fld a0 U HU Hk.
    assert (Hw2 : forall r, (r < 4)%nat -> within (gain u) (nth r (pN p2) 0) (corner_w al0 be0 r)) by (intros r Hr; rewrite W2; apply (Hw r Hr)).
    assert (TW : Forall2 (within ((1 + u) ^ 3 * gain u)) (terms rd P Gn p2 i j fld a 4) (terms' P Gn i j (corner_w al0 be0) fld a 4)) by (eapply terms_within; eassumption).
    edestruct (terms'_sum P) with (w := corner_w al0 be0) (fld := fld) (a := a) (n := 4%nat) as (T1 & T2 & T3); try eassumption.
    assert (G1 : 1 <= (1 + u) ^ 3 * gain u). { pose proof (gain_1 rd u HR). assert (1 <= (1 + u) ^ 3) by (apply pow_R1_Rle; lra). nra. }
    pose proof (acc_from_within rd u HR _ _ _ a0 4 G1 T3 TW) as AW. rewrite T1, T2 in AW.
    destruct (corner_hat (pG P) HP _ _ SX SY (px p) i j al0 be0 Hi Hj Px Py (carried P Gn fld a) U) as [C1 C2].
    { intros k Kk. unfold carried. destruct (Rlt_dec _ _) as [M|M]; [|rewrite Rabs_R0; exact HU]. specialize (Hk k Kk M). unfold Rdiv. rewrite Rabs_mult, Rabs_inv.
      rewrite (Rabs_pos_eq (nth k (gm Gn) 0)) by lra. apply Rmult_le_reg_r with (nth k (gm Gn) 0); [lra|]. rewrite Rmult_assoc, Rinv_l, Rmult_1_r by lra. exact Hk. }
    set (S1 := fsum 4 _) in C1. change (fsum 4 _) with S1 in AW at 1.
    set (S2 := fsum (nodes (pG P)) _) in C1 |- *. set (S3 := fsum 4 _) in C2. change (fsum 4 _) with S3 in AW.
    assert (D : (1 + u) ^ 4 * ((1 + u) ^ 3 * gain u) - 1 = drift u 4 7). { unfold drift, gain. cbn [Nat.add]. field. lra. }
    rewrite D in AW. assert (D0 : 0 <= drift u 4 7). { rewrite <- D. assert (1 <= (1 + u) ^ 4) by (apply pow_R1_Rle; lra). nra. }
    pose proof (Rabs_pos (p_dt P)) as T0.
    assert (B1 : drift u 4 7 * (Rabs (p_dt P) * S3) <= drift u 4 7 * (Rabs (p_dt P) * ((1 + 4 * slip_x u (pG P)) * (1 + 4 * slip_y u (pG P)) * U))) by (repeat apply Rmult_le_compat_l; assumption).
    assert (B2 : Rabs (p_dt P * S1 - p_dt P * S2) <= Rabs (p_dt P) * (48 * (slip_x u (pG P) + slip_y u (pG P)) * U)) by (replace (p_dt P * S1 - p_dt P * S2) with (p_dt P * (S1 - S2)) by ring; rewrite Rabs_mult; apply Rmult_le_compat_l; assumption).
    match goal with |- Rabs (?x - _) <= _ => replace (x - (a0 + p_dt P * S2)) with ((x - (a0 + p_dt P * S1)) + (p_dt P * S1 - p_dt P * S2)) by ring end.
    eapply Rle_trans; [apply Rabs_triang|]. unfold astray. lra. }
  destruct (loop rd P Gn Lm Lq Ld p2 i j Hi Hj En2 sv p' sv' H a) as [L1 L2]. rewrite L1, L2, X2. split; apply Gen; try assumption; intros k Kk Mk; apply (Hb k Kk Mk).
Qed.

(** Moving such a point never fails. *)
Lemma p_C126_runs : forall rd u P B G Gn p p2 sv,
  rounding rd u -> counts rd (nodes (pG P)) -> proper (pG P) -> resolved u (pG P) -> @grid_init R (Num_rd rd) (pG P) B = Ok G ->
  clear u (pG P) (px p) -> weighed rd P G p p2 ->
  length (gm Gn) = nodes (pG P) -> length (gq Gn) = nodes (pG P) -> length (gqd Gn) = nodes (pG P) -> length (gV Gn) = nodes (pG P) ->
  exists p' sv', @move_material_point R (Num_rd rd) P Gn p2 sv = Ok (p', sv').
Proof.
  intros rd u P B G Gn p p2 sv HR HC HP HF HG Cl (q1 & q2 & F1 & F2 & X2 & N2 & W2) Lm Lq Ld LV.
  destruct (point_set_up rd u HR P B G HC HP HF HG p Cl) as (q1' & q2' & F1' & F2' & X & _ & _ & (i & j & Hi & Hj & En & _) & _).
  rewrite F1 in F1'. injection F1' as <-. rewrite F2 in F2'. injection F2' as <-. rewrite <- N2 in En.
  assert (PC : forall r, (r < 4)%nat -> pyi (nodes (pG P)) (nearby (pnstar p2) r (nx (pG P))) = Some (corner (pG P) i j r)) by (apply near_corner; assumption).
  unfold move_material_point.
  match goal with |- context [four P (pnstar p2) ?f (p2, sv)] => destruct (four_total P (pnstar p2) f (fun t => pnstar (fst t) = pnstar p2) (p2, sv) eq_refl) as ([q s] & E & I) end.
  { intros r [q s] Hr I. cbn [fst] in I. rewrite (py_get_some _ _ (corner (pG P) i j r) 0) by (rewrite Lm; apply PC, Hr). cbn [bind].
    destruct (nltb _ _); [|eexists; split; [reflexivity|exact I]].
    rewrite (py_get_some _ _ (corner (pG P) i j r) (mkV3 0 0 0)) by (rewrite Lq; apply PC, Hr). cbn [bind].
    rewrite (py_get_some _ _ (corner (pG P) i j r) (mkV3 0 0 0)) by (rewrite Ld; apply PC, Hr). cbn [bind]. cbv zeta.
    destruct (pv _); (eexists; split; [reflexivity|exact I]). }
  rewrite E. cbn [bind]. cbn [fst] in I. rewrite I.
  match goal with |- context [four P (pnstar p2) ?f ?z] => destruct (four_total P (pnstar p2) f (fun _ => True) z Logic.I) as (rho & E2 & _) end.
  { intros r t Hr _. rewrite (py_get_some _ _ (corner (pG P) i j r) 0) by (rewrite Lm; apply PC, Hr). cbn [bind].
    destruct (nltb _ _); [|eauto]. rewrite (py_get_some _ _ (corner (pG P) i j r) 0) by (rewrite LV; apply PC, Hr). cbn [bind]. eauto. }
  rewrite E2. cbn [bind]. eauto.
Qed.

Definition back_p : particle R := ex_particle (1 / 3) (1 / 2) (mkV3 1 0 0) (mkM3 0 0 0 0 0 0 0 0 0).
Definition back_grid (G : grid R) : grid R :=
  G <| gm := repeat 2 12 |> <| gq := repeat (mkV3 4 0 0) 12 |> <| gqd := repeat (mkV3 0 (-6) 0) 12 |> <| gV := repeat 1 12 |>.

(** A point on a grid of four by three nodes, in binary64; nodes of mass 2, momentum 4 to the right and force 6 downwards.  The error is below 1e-9 of the step. *)
Example x_C126_back : exists G p2 p' sv',
  rounding near64 u64 /\ counts near64 (nodes (pG round_params)) /\ proper (pG round_params) /\ resolved u64 (pG round_params) /\
  @grid_init R (Num_rd near64) (pG round_params) ex_bounds = Ok G /\ clear u64 (pG round_params) (px back_p) /\ weighed near64 round_params G back_p p2 /\
  length (gm (back_grid G)) = nodes (pG round_params) /\ length (gq (back_grid G)) = nodes (pG round_params) /\ length (gqd (back_grid G)) = nodes (pG round_params) /\
  0 <= p_Mtol round_params < 2 /\
  (forall k a, (k < nodes (pG round_params))%nat -> nth k (gm (back_grid G)) 0 = 2 /\
     Rabs (comp a (nth k (gq (back_grid G)) (mkV3 0 0 0))) <= 2 * nth k (gm (back_grid G)) 0 /\ Rabs (comp a (nth k (gqd (back_grid G)) (mkV3 0 0 0))) <= 3 * nth k (gm (back_grid G)) 0) /\
  @move_material_point R (Num_rd near64) round_params (back_grid G) p2 (mkV3 0 0 0) = Ok (p', sv') /\
  carried round_params (back_grid G) (gq (back_grid G)) AX 5 = 2 /\ astray u64 (pG round_params) <= 1 / 1000000000.
Proof.
  assert (HC : counts near64 (nodes (pG round_params))) by (apply near64_counts; reflexivity).
  assert (U : 0 < u64 <= 1 / 1000000000000000).
  { unfold u64. assert (0 < bpow radix2 (- 52)) by apply bpow_gt_0. assert (K : bpow radix2 (- 52) <= bpow radix2 (- 50)) by (apply bpow_le; lia). cbn in K. cbn in H |- *. lra. }
  assert (HP : proper (pG round_params)) by (unfold proper; cbn; repeat split; try lia; lra).
  assert (SX : slip_x u64 (pG round_params) = 384 * u64).
  { unfold slip_x, slip. cbn. rewrite Rabs_R0, (Rabs_pos_eq 3) by lra. rewrite Rmax_right by lra. field. }
  assert (SY : slip_y u64 (pG round_params) = 192 * u64).
  { unfold slip_y, slip. cbn. rewrite Rabs_R0, (Rabs_pos_eq 2) by lra. rewrite Rmax_right by lra. field. }
  assert (HF : resolved u64 (pG round_params)) by (unfold resolved; rewrite SX, SY; lra).
  assert (CW : cell_w (pG round_params) = 1) by (unfold cell_w; cbn; field).
  assert (CH : cell_h (pG round_params) = 1) by (unfold cell_h; cbn; field).
  assert (Cl : clear u64 (pG round_params) (px back_p)) by (unfold clear; rewrite SX, SY, CW, CH; cbn; lra).
  destruct (@grid_init R (Num_rd near64) (pG round_params) ex_bounds) as [G|e] eqn:EG; [|discriminate EG].
  destruct (point_set_up near64 u64 near64_rounding round_params ex_bounds G HC HP HF EG back_p Cl) as (q1 & q2 & F1 & F2 & X & _).
  assert (W : weighed near64 round_params G back_p q2) by (exists q1, q2; auto).
  destruct (p_C126_runs near64 u64 round_params ex_bounds G (back_grid G) back_p q2 (mkV3 0 0 0) near64_rounding HC HP HF EG Cl W eq_refl eq_refl eq_refl eq_refl) as (p' & sv' & M).
  assert (Mt : 0 <= p_Mtol round_params < 2) by (cbn; lra).
  exists G, q2, p', sv'. split; [exact near64_rounding|]. split; [exact HC|]. split; [exact HP|]. split; [exact HF|]. split; [reflexivity|]. split; [exact Cl|]. split; [exact W|].
  split; [reflexivity|]. split; [reflexivity|]. split; [reflexivity|]. split; [exact Mt|]. split; [|split; [exact M|split]].
  - intros k a Hk. change (nodes (pG round_params)) with 12%nat in Hk. change (gm (back_grid G)) with (repeat 2 12). change (gq (back_grid G)) with (repeat (mkV3 4 0 0) 12). change (gqd (back_grid G)) with (repeat (mkV3 0 (-6) 0) 12).
    do 12 (destruct k as [|k]; [cbn [nth repeat]; split; [reflexivity|]; destruct a; cbn; split; apply Rabs_le; lra|]). lia.
  - unfold carried. change (nth 5 (gm (back_grid G)) 0) with 2. destruct (Rlt_dec _ _); [|lra]. cbn. field.
  - unfold astray. rewrite SX, SY. assert (D : drift u64 4 7 <= 50 * u64).
    { unfold drift. cbn [Nat.add]. set (v := u64) in *.
      assert (PB : forall n, (n <= 11)%nat -> (1 + v) ^ n <= 1 + 2 * INR n * v).
      { induction n as [|n IH]; intros Hn; [cbn; lra|]. specialize (IH ltac:(lia)). cbn [pow]. rewrite S_INR. assert (N : INR n <= 11) by (apply (le_INR n 11) in Hn || (assert (n <= 11)%nat as Hn' by lia; apply le_INR in Hn'); cbn in *; lra). pose proof (pos_INR n). nra. }
      specialize (PB 11%nat (le_n _)). cbn [INR] in PB. apply Rmult_le_reg_r with (1 - v); [lra|]. unfold Rdiv. rewrite Rmult_minus_distr_r, Rmult_assoc, Rinv_l by lra. nra. }
    assert (D0 : 0 <= drift u64 4 7). { unfold drift. cbn [Nat.add]. assert (1 <= (1 + u64) ^ 11) by (apply pow_R1_Rle; lra). assert (1 <= (1 + u64) ^ 11 / (1 - u64)); [|lra]. apply Rmult_le_reg_r with (1 - u64); [lra|]. unfold Rdiv. rewrite Rmult_assoc, Rinv_l by lra. lra. }
    assert (E : (1 + 4 * (384 * u64)) * (1 + 4 * (192 * u64)) <= 2) by nra. assert (0 <= (1 + 4 * (384 * u64)) * (1 + 4 * (192 * u64))) by nra. nra.
Qed.
