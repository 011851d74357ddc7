(** * Rounded sums on the grid. *)
From Coq Require Import ZArith Reals List Bool Arith Lra Lia.
From RecordUpdate Require Import RecordUpdate.
From Verif Require Import State NumR NumRd Spec SpecRound LibList LibR ModelGrid ModelConstit ModelParticle ModelMPList ModelMain
  ProofsGrid ProofsMap ProofsRound.
Import ListNotations.
Local Open Scope R_scope.

(** ** Sums *)
Lemma Forall2_len {A B} (Q : A -> B -> Prop) l l' : Forall2 Q l l' -> length l = length l'.
Proof. induction 1; cbn; congruence. Qed.
Lemma sum_within g l l' : Forall2 (within g) l l' ->
  Rabs (Rsum l - Rsum l') <= (g - 1) * Rsum (map Rabs l') /\ Rsum (map Rabs l) <= g * Rsum (map Rabs l').
Proof.
  induction 1 as [|x y l l' H F [IH1 IH2]]; cbn [Rsum fold_right map].
  - rewrite Rminus_0_r, Rabs_R0. lra.
  - fold (Rsum l) (Rsum l') (Rsum (map Rabs l)) (Rsum (map Rabs l')). pose proof (within_abs _ _ _ H). unfold within in H. split; [|lra].
    replace (x + Rsum l - (y + Rsum l')) with ((x - y) + (Rsum l - Rsum l')) by ring. eapply Rle_trans; [apply Rabs_triang|]. lra.
Qed.

Section Rd.
  Context (rd : R -> R) (u : R) (HR : rounding rd u).
  Let Hu : 0 <= u <= 1 / 100. Proof. apply HR. Qed.

  Definition acc (l : list R) (a : R) : R := fold_left (fun a t => rd (a + t)) l a.

  Lemma acc_err l : Rabs (acc l 0 - Rsum l) <= ((1 + u) ^ length l - 1) * Rsum (map Rabs l).
  Proof.
    enough (K : forall l a S B n, Rabs (a - S) <= ((1 + u) ^ n - 1) * B -> Rabs a <= (1 + u) ^ n * B -> 0 <= B ->
      Rabs (acc l a - (S + Rsum l)) <= ((1 + u) ^ (n + length l) - 1) * (B + Rsum (map Rabs l))).
    { specialize (K l 0 0 0 0%nat). rewrite !Rplus_0_l, Nat.add_0_l in K. apply K; rewrite ?Rminus_0_r, ?Rabs_R0; cbn; lra. }
    clear l. induction l as [|t l IH]; intros a S B n H1 H2 HB.
    - cbn. rewrite Nat.add_0_r, !Rplus_0_r. exact H1.
    - cbn [acc fold_left length map Rsum fold_right]. fold (acc l (rd (a + t))). fold (Rsum l) (Rsum (map Rabs l)).
      replace (n + Datatypes.S (length l))%nat with (Datatypes.S n + length l)%nat by lia. rewrite <- !Rplus_assoc.
      assert (P1 : 1 <= (1 + u) ^ n) by (apply pow_R1_Rle; lra). pose proof (Rabs_pos t) as T0.
      destruct HR as [_ Hrd]. specialize (Hrd (a + t)). pose proof (Rabs_triang a t) as TT. pose proof (Rabs_pos a) as A0.
      assert (U1 : u * Rabs (a + t) <= u * ((1 + u) ^ n * B + Rabs t)) by (apply Rmult_le_compat_l; lra).
      assert (Q : 0 <= u * (((1 + u) ^ n - 1) * Rabs t)) by (repeat apply Rmult_le_pos; lra).
      apply IH; [| |lra].
      + replace (rd (a + t) - (S + t)) with ((rd (a + t) - (a + t)) + (a - S)) by ring. eapply Rle_trans; [apply Rabs_triang|].
        cbn [pow]. nra.
      + replace (rd (a + t)) with ((rd (a + t) - (a + t)) + (a + t)) by ring. eapply Rle_trans; [apply Rabs_triang|].
        cbn [pow]. nra.
  Qed.

  Lemma acc_within g l l' : 1 <= g -> Forall2 (within g) l l' ->
    Rabs (acc l 0 - Rsum l') <= ((1 + u) ^ length l' * g - 1) * Rsum (map Rabs l').
  Proof.
    intros G1 F. destruct (sum_within _ _ _ F) as [S1 S2]. pose proof (acc_err l) as A. rewrite (Forall2_len _ _ _ F) in A.
    replace (acc l 0 - Rsum l') with (acc l 0 - Rsum l + (Rsum l - Rsum l')) by ring. eapply Rle_trans; [apply Rabs_triang|].
    assert (P1 : 1 <= (1 + u) ^ length l') by (apply pow_R1_Rle; lra).
    assert (((1 + u) ^ length l' - 1) * Rsum (map Rabs l) <= ((1 + u) ^ length l' - 1) * (g * Rsum (map Rabs l'))) by (apply Rmult_le_compat_l; lra).
    lra.
  Qed.

  (** ** Shape functions *)
  Definition gain : R := (1 + u) ^ 4 / (1 - u).
  Lemma gain_1 : 1 <= gain.
  Proof. unfold gain. assert (1 <= (1 + u) ^ 4) by (apply pow_R1_Rle; lra). apply Rmult_le_reg_r with (1 - u); [lra|]. unfold Rdiv. rewrite Rmult_assoc, Rinv_l by lra. lra. Qed.
  Lemma quot x y z w d : d <> 0 -> within (1 + u) x z -> within (1 + u) y w -> within gain (rd (rd (x * y) / rd d)) (z * w / d).
  Proof.
    intros Hd Hx Hy. unfold Rdiv at 2.
    replace gain with ((1 + u) * (((1 + u) * ((1 + u) * (1 + u))) * (1 / (2 - (1 + u))))) by (unfold gain; field; lra).
    apply (rd_step _ _ HR). apply within_mult; [nra| |apply within_inv; [lra|exact Hd|apply (rd_within _ _ HR)]].
    apply (rd_step _ _ HR). apply within_mult; [lra|exact Hx|exact Hy].
  Qed.
  Definition corner_w (al be : R) (r : nat) : R :=
    match r with 0%nat => (1 - al) * (1 - be) | 1%nat => al * (1 - be) | 2%nat => al * be | _ => (1 - al) * be end.
  Lemma corner_w_sum al be : fsum 4 (corner_w al be) = 1.
  Proof. cbn. ring. Qed.

  Lemma shape_rd dx dy v r : 0 < dx -> 0 < dy -> (r < 4)%nat ->
    within gain (nth r (fst (@shape R (Num_rd rd) dx dy v)) 0) (corner_w (vx v / dx) (vy v / dy) r).
  Proof.
    intros Hx Hy Hr. assert (Hd : dx * dy <> 0) by (apply Rmult_integral_contrapositive; lra).
    assert (W1 : forall x, within (1 + u) x x) by (intros x; apply (within_le 1); [lra|apply within_refl]).
    unfold shape. cbn [fst nadd nsub nmul ndiv Num_rd].
    destruct r as [|[|[|[|r]]]]; [| | | |lia]; cbn [nth corner_w].
    - replace ((1 - vx v / dx) * (1 - vy v / dy)) with ((dx - vx v) * (dy - vy v) / (dx * dy)) by (field; lra). apply quot; auto using (rd_within _ _ HR).
    - replace (vx v / dx * (1 - vy v / dy)) with (vx v * (dy - vy v) / (dx * dy)) by (field; lra). apply quot; auto using (rd_within _ _ HR).
    - replace (vx v / dx * (vy v / dy)) with (vx v * vy v / (dx * dy)) by (field; lra). apply quot; auto.
    - replace ((1 - vx v / dx) * (vy v / dy)) with ((dx - vx v) * vy v / (dx * dy)) by (field; lra). apply quot; auto using (rd_within _ _ HR).
  Qed.

  (** ** What is put on a node *)
  Definition drop (N nxx : nat) (ns : Z) (k : nat) (val : nat -> R) : list R :=
    flat_map (fun r => match pyi N (nearby ns r nxx) with Some j => if Nat.eqb k j then [val r] else [] | None => [] end) [0; 1; 2; 3]%nat.
  Definition heap (N nxx : nat) (L : list (phase R)) (k : nat) (val : phase R -> particle R -> nat -> R) : list R :=
    flat_map (fun ph => flat_map (fun p => drop N nxx (pnstar p) k (val ph p)) (live ph)) L.

  Definition put_m (ph : phase R) (p : particle R) (r : nat) : R := rd (Nr p r * pm p).
  Definition put_q (a : axis) (ph : phase R) (p : particle R) (r : nat) : R := rd (rd (Nr p r * pm p) * comp a (velocity ph p)).

  Definition lens (N : nat) (G : grid R) : Prop := length (gm G) = N /\ length (gq G) = N.
  Definition z3 : V3 R := mkV3 0 0 0.
  Definition sums N nxx L G G' : Prop := lens N G' /\
    (forall k, (k < N)%nat -> nth k (gm G') 0 = acc (heap N nxx L k put_m) (nth k (gm G) 0)) /\
    (forall k a, (k < N)%nat -> comp a (nth k (gq G') z3) = acc (heap N nxx L k (put_q a)) (comp a (nth k (gq G) z3))) /\
    bv G' = bv G /\ bh G' = bh G.

  Lemma acc_app l l' a : acc (l ++ l') a = acc l' (acc l a).
  Proof. apply fold_left_app. Qed.

  Lemma p2g_rd (P : params R) N ph p G G' : lens N G -> @p2g R (Num_rd rd) P (ph_sv ph) p G = Ok G' ->
    lens N G' /\
    (forall k, (k < N)%nat -> nth k (gm G') 0 = acc (drop N (nx (pG P)) (pnstar p) k (put_m ph p)) (nth k (gm G) 0)) /\
    (forall k a, (k < N)%nat -> comp a (nth k (gq G') z3) = acc (drop N (nx (pG P)) (pnstar p) k (put_q a ph p)) (comp a (nth k (gq G) z3))) /\
    bv G' = bv G /\ bh G' = bh G.
  Proof.
    intros HL H. unfold p2g in H.
    set (part := fun (n k : nat) (val : nat -> R) => flat_map (fun r => match pyi N (nearby (pnstar p) r (nx (pG P))) with Some j => if Nat.eqb k j then [val r] else [] | None => [] end) (seq 0 n)).
    apply (four_ind P (pnstar p) _ (fun r G' => lens N G' /\
      (forall k, (k < N)%nat -> nth k (gm G') 0 = acc (part r k (put_m ph p)) (nth k (gm G) 0)) /\
      (forall k a, (k < N)%nat -> comp a (nth k (gq G') z3) = acc (part r k (put_q a ph p)) (comp a (nth k (gq G) z3))) /\
      bv G' = bv G /\ bh G' = bh G)) in H; [exact H|cbn; auto|].
    clear H G'. intros r t t' Hr ((L1 & L2) & M & Q & B1 & B2) Hf. cbv zeta in Hf. pbinds Hf. pose proof (py_upd_length _ _ _ _ E) as Lm. pose proof (py_upd_length _ _ _ _ E0) as Lq.
    apply py_upd_ok in E. destruct E as (j & Ej & Hj & ->). apply py_upd_ok in E0. destruct E0 as (j' & Ej' & Hj' & ->). rewrite L1 in Ej. rewrite L2 in Ej'.
    rewrite Ej in Ej'. injection Ej' as <-.
    assert (PS : forall k val, part (Datatypes.S r) k val = part r k val ++ (if Nat.eqb k j then [val r] else [])).
    { intros k val. unfold part. rewrite seq_S, flat_map_app. cbn [flat_map]. rewrite Nat.add_0_l, Ej, app_nil_r. reflexivity. }
    set (G1 := t <| gm := _ |> <| gq := _ |>) in Hf.
    assert (K : lens N G1 /\
      (forall k, (k < N)%nat -> nth k (gm G1) 0 = acc (part (Datatypes.S r) k (put_m ph p)) (nth k (gm G) 0)) /\
      (forall k a, (k < N)%nat -> comp a (nth k (gq G1) z3) = acc (part (Datatypes.S r) k (put_q a ph p)) (comp a (nth k (gq G) z3))) /\
      bv G1 = bv G /\ bh G1 = bh G).
    { match goal with G1 := ?t <| gm := ?m |> <| gq := ?q |> |- _ => assert (Gm : gm G1 = m) by reflexivity; assert (Gq : gq G1 = q) by reflexivity end.
      unfold lens. rewrite Gm, Gq. split; [split; rewrite upd_length; assumption|]. split; [|split; [|auto]].
      - intros k Hk. rewrite PS, acc_app, <- M by exact Hk. rewrite upd_nth. rewrite L1.
        destruct (Nat.eqb_spec k j) as [->|Nk]; cbn [andb]; [|reflexivity]. destruct (Nat.ltb_spec j N); [|lia]. cbn. reflexivity.
      - intros k a Hk. rewrite PS, acc_app, <- Q by exact Hk. rewrite upd_nth. rewrite L2.
        destruct (Nat.eqb_spec k j) as [->|Nk]; cbn [andb]; [|reflexivity]. destruct (Nat.ltb_spec j N); [|lia].
        destruct a; cbn; reflexivity. }
    destruct (p_seg P); [|injection Hf as <-; exact K]. pbinds Hf. injection Hf as <-. exact K.
  Qed.

  Lemma each_rd (P : params R) N ph : forall n l G l' G', lens N G ->
    each n (fun p G => G <- @p2g R (Num_rd rd) P (ph_sv ph) p G ;; Ok (p, G)) l G = Ok (l', G') ->
    lens N G' /\
    (forall k, (k < N)%nat -> nth k (gm G') 0 = acc (flat_map (fun p => drop N (nx (pG P)) (pnstar p) k (put_m ph p)) (firstn n l)) (nth k (gm G) 0)) /\
    (forall k a, (k < N)%nat -> comp a (nth k (gq G') z3) = acc (flat_map (fun p => drop N (nx (pG P)) (pnstar p) k (put_q a ph p)) (firstn n l)) (comp a (nth k (gq G) z3))) /\
    bv G' = bv G /\ bh G' = bh G.
  Proof.
    induction n as [|n IH]; intros l G l' G' HL H; cbn [each] in H.
    - injection H as <- <-. cbn. auto.
    - destruct l as [|p l]; [discriminate|]. pbinds H. injection H as <- <-. pbinds E. injection E as <- <-.
      destruct (p2g_rd P N ph p _ _ HL E1) as (L1 & M1 & Q1 & B1 & B2). destruct (IH _ _ _ _ L1 E0) as (L2 & M2 & Q2 & B3 & B4).
      cbn [firstn flat_map]. split; [exact L2|]. split; [|split; [|split; congruence]].
      + intros k Hk. rewrite acc_app, <- M1 by exact Hk. apply M2. exact Hk.
      + intros k ax Hk. rewrite acc_app, <- Q1 by exact Hk. apply Q2. exact Hk.
  Qed.

  Lemma p2g_loop_rd (P : params R) N : forall L m G L' G', lens N G ->
    forM (fun _ ph G =>
        '(_, G) <- each (ph_n ph) (fun p G => G <- @p2g R (Num_rd rd) P (ph_sv ph) p G ;; Ok (p, G)) (ph_pts ph) G ;;
        Ok (ph, if p_seg P then G <| g_phi := @node_fractions R (Num_rd rd) G |> else G)) m L G = Ok (L', G') -> sums N (nx (pG P)) L G G'.
  Proof.
    induction L as [|ph L IH]; intros m G L' G' HL H; cbn [forM] in H.
    - injection H as <- <-. unfold sums. cbn. auto.
    - pbinds H. injection H as <- <-. pbinds E. injection E as <- <-.
      destruct (each_rd P N ph _ _ _ _ _ HL E1) as (L1 & M1 & Q1 & B1 & B2).
      match type of E0 with forM _ _ _ ?g = _ => set (G1 := g) in E0 end.
      assert (K : gm G1 = gm b4 /\ gq G1 = gq b4 /\ bv G1 = bv b4 /\ bh G1 = bh b4) by (unfold G1; destruct (p_seg P); cbn; auto). destruct K as (K1 & K2 & K3 & K4).
      assert (HL1 : lens N G1) by (unfold lens; rewrite K1, K2; exact L1).
      destruct (IH _ _ _ _ HL1 E0) as (L2 & M2 & Q2 & B3 & B4). rewrite K1, K2, K3, K4 in *.
      unfold sums. split; [exact L2|]. split; [|split; [|split; congruence]].
      + intros k Hk. unfold heap. cbn [flat_map]. rewrite acc_app. unfold live at 1. rewrite <- M1 by exact Hk. apply M2. exact Hk.
      + intros k ax Hk. unfold heap. cbn [flat_map]. rewrite acc_app. unfold live at 1. rewrite <- Q1 by exact Hk. apply Q2. exact Hk.
  Qed.
End Rd.
