(** * Proofs about Grid.update_momentum and Grid.BCs. *)
From Coq Require Import ZArith Reals List Bool Arith Lra Lia.
From Verif Require Import State NumR Spec LibList LibR ModelGrid ProofsSlice ProofsGrid ProofsMap ProofsP2G.
Import ListNotations.
Local Open Scope R_scope.

Lemma zipw_vsub_comp (l m : list (V3 R)) k a : length l = length m ->
  comp a (nth k (zipw vsub l m) v0) = comp a (nth k l v0) - comp a (nth k m v0).
Proof.
  intros E. destruct (Nat.lt_ge_cases k (length l)).
  - rewrite (zipw_nth _ _ _ _ v0 v0 v0) by lia. apply comp_vsub.
  - rewrite !nth_overflow; rewrite ?zipw_length; try lia. rewrite comp_v0. lra.
Qed.
Lemma qd_comp P (G : grid R) k a : length (gfe G) = length (gfi G) ->
  let q := zipw vsub (gfe G) (gfi G) in
  let q' := if p_damping P then map (fun q => vmuls q (lit 7 10)) q else q in
  comp a (nth k q' v0) = net_force P G a k /\ length q' = length (gfe G).
Proof.
  intros E q q'. assert (L : length q = length (gfe G)) by (unfold q; rewrite zipw_length; lia).
  unfold q', net_force. destruct (p_damping P).
  - split; [|rewrite map_length; auto].
    destruct (Nat.lt_ge_cases k (length q)).
    + rewrite nth_map_lt with (d := v0) by auto. rewrite comp_vmuls. unfold q. rewrite zipw_vsub_comp by auto.
      unfold lit. unR. lra.
    + rewrite !nth_overflow; rewrite ?map_length; try lia. rewrite comp_v0. lra.
  - split; auto. unfold q. rewrite zipw_vsub_comp by auto. lra.
Qed.

Lemma fric_nth mu v h (q : list (V3 R)) k : length v = length q -> length h = length q ->
  (k < length q)%nat -> k <> 1%nat ->
  nth k (friction mu v h q) v0 =
  let x := nth k q v0 in
  mkV3 (vx x - Rsign (vx x) * ((if nth k h false then 1 else 0) * Rmin (Rabs (vx x)) (mu * Rabs (vy x))))
       (vy x - Rsign (vy x) * ((if nth k v false then 1 else 0) * Rmin (Rabs (vy x)) (mu * Rabs (vx x)))) (vz x).
Proof.
  intros Ev Eh Hk H1. unfold friction.
  rewrite (mapi_nth _ _ k ((false, false), v0) v0) by (rewrite !combine_length; lia).
  rewrite !combine_nth by (rewrite ?combine_length; lia).
  destruct (Nat.eqb_spec k 1); [lia|]. unR. reflexivity.
Qed.
(** Node 1 is rubbed in no case. *)
Lemma fric_nth1 mu v h (q : list (V3 R)) : length v = length q -> length h = length q ->
  nth 1 (friction mu v h q) v0 = nth 1 q v0.
Proof.
  intros Ev Eh. destruct (Nat.lt_ge_cases 1 (length q)) as [Hk|Hk].
  - unfold friction.
    rewrite (mapi_nth _ _ 1 ((false, false), v0) v0) by (rewrite !combine_length; lia).
    rewrite !combine_nth by (rewrite ?combine_length; lia).
    cbn [Nat.eqb]. set (q1 := nth 1 q v0). destruct q1 as [x y z]. cbn [vx vy vz]. unR.
    assert (Z : forall a, (nofb (Rltb a 0) : R) * nofb (Rltb 0 a) = 0).
    { intros a. unfold Rltb. destruct (Rlt_dec a 0), (Rlt_dec 0 a); cbn; lra. }
    assert (Z' : forall a, (nofb (Rltb 0 a) : R) * nofb (Rltb a 0) = 0) by (intros; rewrite Rmult_comm; apply Z).
    rewrite !Rmult_assoc, Z, Z', !Rmult_0_r, !Rminus_0_r. reflexivity.
  - assert (L : length (friction mu v h q) = length q).
    { unfold friction. rewrite mapi_length, !combine_length. lia. }
    rewrite !nth_overflow by lia. auto.
Qed.
Lemma friction_len mu v h (q : list (V3 R)) : length v = length q -> length h = length q ->
  length (friction mu v h q) = length q.
Proof. intros. unfold friction. rewrite mapi_length, !combine_length. lia. Qed.

Lemma coulomb_eq mu t n : 0 <= mu -> t - Rsign t * (1 * Rmin (Rabs t) (mu * Rabs n)) = coulomb mu t n.
Proof.
  intros Hm. pose proof (Rmult_le_pos mu (Rabs n) Hm (Rabs_pos n)).
  unfold coulomb. set (m := mu * Rabs n) in *. clearbody m. unfold Rsign, Rmin.
  destruct (Rle_dec (Rabs t) m); destruct (Rlt_dec 0 t); try destruct (Rlt_dec t 0);
  unfold Rabs in *; destruct (Rcase_abs t); lra.
Qed.

(** What update_momentum does at each node. *)
Section UM.
  Context (P : params R) (G G' : grid R).
  Context (HS : sized (pG P) G) (HU : update_momentum P G = Ok G').

  (** The masks after the call. *)
  Definition masks_after : list bool * list bool :=
    if roughness (pB P) then
      match truthy_mu (wall_mu (pB P)) with Some _ => friction_masks P G | None => (bv G, bh G) end
    else (bv G, bh G).
  Definition rates_after : list (V3 R) :=
    let qd := zipw vsub (gfe G) (gfi G) in
    let qd := if p_damping P then map (fun q => vmuls q (lit 7 10)) qd else qd in
    let '(v, h) := masks_after in
    mask_y h (mask_x v
      (if roughness (pB P) then
        match truthy_mu (wall_mu (pB P)) with
        | Some mu => friction mu v h qd
        | None => mask_y v (mask_x h qd) end
       else qd)).
  Lemma um_shape :
    G' = G <| bv := fst masks_after |> <| bh := snd masks_after |> <| gqd := rates_after |> <| gq := gq G' |> /\
    exists v0', (conveyor (pB P) = true -> p_v0 P = Some v0') /\
    gq G' = let q := zipw (fun a b => vadd a (vmuls b (p_dt P))) (gq G) rates_after in
            if conveyor (pB P) then
              zipw (fun bq m => if fst bq : bool then setx (fun _ => v0' * m) (snd bq) else snd bq)
                   (combine (bconv G) q) (gm G)
            else q.
  Proof.
    revert HU. unfold update_momentum, rates_after, masks_after. intros E.
    set (qd := zipw vsub (gfe G) (gfi G)) in *.
    set (qd1 := if p_damping P then map (fun q => vmuls q (lit 7 10)) qd else qd) in *.
    assert (C : forall v h q0 (X : res (grid R)),
      (let qd2 := mask_y h (mask_x v q0) in
       let q := zipw (fun a b => vadd a (vmuls b (p_dt P))) (gq G) qd2 in
       let G1 := G <| bv := v |> <| bh := h |> <| gqd := qd2 |> <| gq := q |> in
       if conveyor (pB P) then
         v0' <- attr (p_v0 P) ;;
         Ok (G1 <| gq := zipw (fun bq m => if fst bq : bool then setx (fun _ => (v0' * m)%num) (snd bq) else snd bq)
                           (combine (bconv G) q) (gm G) |>)
       else Ok G1) = Ok G' ->
      G' = G <| bv := v |> <| bh := h |> <| gqd := mask_y h (mask_x v q0) |> <| gq := gq G' |> /\
      exists v0', (conveyor (pB P) = true -> p_v0 P = Some v0') /\
      gq G' = let q := zipw (fun a b => vadd a (vmuls b (p_dt P))) (gq G) (mask_y h (mask_x v q0)) in
            if conveyor (pB P) then
              zipw (fun bq m => if fst bq : bool then setx (fun _ => v0' * m) (snd bq) else snd bq)
                   (combine (bconv G) q) (gm G)
            else q).
    { clear. intros v h q0 _. cbv zeta. destruct (conveyor (pB P)) eqn:Ec.
      - intros E. pbinds E. apply attr_ok in E0. injection E as <-. split; [reflexivity|].
        exists a. split; auto.
      - intros E. injection E as <-. split; [reflexivity|]. exists 0. split; [discriminate|]. reflexivity. }
    destruct (roughness (pB P)).
    - destruct (truthy_mu (wall_mu (pB P))) as [mu|].
      + destruct (friction_masks P G) as [v h]. apply (C _ _ _ (Ok G)) in E. exact E.
      + apply (C _ _ _ (Ok G)) in E. exact E.
    - apply (C _ _ _ (Ok G)) in E. exact E.
  Qed.

  Let n := (nx (pG P) * ny (pG P))%nat.

  Lemma masks_after_len : length (fst masks_after) = n /\ length (snd masks_after) = n.
  Proof.
    destruct HS as (A & B & _). unfold masks_after. fold n in A, B.
    destruct (roughness (pB P)); [destruct (truthy_mu _)|]; cbn [fst snd]; auto.
    unfold friction_masks. cbn [fst snd]. rewrite !map_slice_length. auto.
  Qed.
  Lemma um_bv : bv G' = fst masks_after.
  Proof. destruct um_shape as [-> _]. reflexivity. Qed.
  Lemma um_bh : bh G' = snd masks_after.
  Proof. destruct um_shape as [-> _]. reflexivity. Qed.
  Lemma um_qd : gqd G' = rates_after.
  Proof. destruct um_shape as [-> _]. reflexivity. Qed.

  Lemma rates_len : length rates_after = n.
  Proof.
    destruct HS as (A & B & _ & _ & _ & C & D & _). fold n in A, B, C, D.
    destruct masks_after_len as [M1 M2]. unfold rates_after.
    destruct (qd_comp P G 0 AX) as [_ L]; [lia|]. cbv zeta in L.
    set (qd := if p_damping P then _ else _) in *.
    destruct masks_after as [v h]. cbn [fst snd] in *.
    assert (Q : forall q, length q = n -> length (mask_y h (mask_x v q)) = n).
    { intros q Hq. destruct (mask_x_comp v q 0) as (_ & _ & _ & X); [lia|].
      destruct (mask_y_comp h (mask_x v q) 0) as (_ & _ & _ & Y); lia. }
    apply Q. destruct (roughness (pB P)); [destruct (truthy_mu _)|].
    - rewrite friction_len; lia.
    - destruct (mask_x_comp h qd 0) as (_ & _ & _ & X); [lia|].
      destruct (mask_y_comp v (mask_x h qd) 0) as (_ & _ & _ & Y); lia.
    - lia.
  Qed.

  (** Without a friction coefficient. *)
  Lemma truthy_none : no_rub (pB P) -> roughness (pB P) = true -> truthy_mu (wall_mu (pB P)) = None.
  Proof.
    intros [E|[E|E]] R; [congruence| |]; rewrite E; auto. cbn. unR.
    rewrite (proj2 (Reqb_true 0 0)); auto.
  Qed.
  Lemma no_rub_masks : no_rub (pB P) -> bv G' = bv G /\ bh G' = bh G.
  Proof.
    intros NR. rewrite um_bv, um_bh. unfold masks_after.
    destruct (roughness (pB P)) eqn:R; auto. rewrite truthy_none; auto.
  Qed.
  Lemma no_rub_rate : no_rub (pB P) -> forall a k,
    comp a (nth k (gqd G') v0) = open_a a (roughness (pB P)) (bv G) (bh G) k * net_force P G a k.
  Proof.
    intros NR a k. rewrite um_qd. unfold rates_after, masks_after.
    destruct HS as (A & B & _ & _ & _ & C & D & _). fold n in A, B, C, D.
    destruct (qd_comp P G k a) as [V L]; [lia|]. cbv zeta in V, L.
    set (qd := if p_damping P then _ else _) in *.
    destruct (roughness (pB P)) eqn:R.
    - rewrite truthy_none by auto. rewrite <- V.
      destruct (mask_x_comp (bh G) qd k) as (X1 & X2 & X3 & X4); [lia|].
      destruct (mask_y_comp (bv G) (mask_x (bh G) qd) k) as (Y1 & Y2 & Y3 & Y4); [lia|].
      set (q1 := mask_y (bv G) (mask_x (bh G) qd)) in *.
      destruct (mask_x_comp (bv G) q1 k) as (U1 & U2 & U3 & U4); [lia|].
      destruct (mask_y_comp (bh G) (mask_x (bv G) q1) k) as (W1 & W2 & W3 & W4); [lia|].
      destruct a; cbn [comp open_a]; unfold open_x, open_y.
      + rewrite W1, U1, Y1, X1. destruct (nth k (bv G) false), (nth k (bh G) false); cbn; lra.
      + rewrite W2, U2, Y2, X2. destruct (nth k (bv G) false), (nth k (bh G) false); cbn; lra.
      + rewrite W3, U3, Y3, X3. lra.
    - rewrite <- V. destruct (walls_comp false (bv G) (bh G) qd k a) as [W _]; [lia|lia|]. exact W.
  Qed.

  (** With a friction coefficient. *)
  Lemma truthy_some mu : rubs (pB P) mu -> truthy_mu (wall_mu (pB P)) = Some mu.
  Proof. intros (_ & -> & H). cbn. unR. rewrite (proj2 (Reqb_false mu 0)); auto. Qed.
  Lemma rub_masks mu : rubs (pB P) mu -> (0 < nx (pG P))%nat -> (0 < ny (pG P))%nat ->
    forall k, (k < n)%nat ->
    nth k (bv G') false = (nth k (bv G) false || Nat.eqb (col (pG P) k) 0 || Nat.eqb (col (pG P) k) (nx (pG P) - 1))%bool /\
    nth k (bh G') false = (nth k (bh G) false || Nat.eqb (row (pG P) k) 0 || Nat.eqb (row (pG P) k) (ny (pG P) - 1))%bool.
  Proof.
    intros RU Hx Hy k Hk. rewrite um_bv, um_bh. unfold masks_after.
    rewrite (truthy_some mu RU). destruct RU as (-> & _). unfold friction_masks. cbn [fst snd].
    destruct HS as (A & B & _). fold n in A, B.
    rewrite !map_slice_nth by (rewrite ?map_slice_length; lia).
    rewrite !map_slice_length, A, B. unfold n.
    rewrite in_slice_left, in_slice_right, in_slice_first, in_slice_from by nia.
    rewrite row_last, row_zero by lia. unfold row, col.
    destruct (Nat.eqb (k mod nx (pG P)) 0), (Nat.eqb (k mod nx (pG P)) (nx (pG P) - 1)),
      (Nat.eqb (k / nx (pG P)) 0), (Nat.eqb (k / nx (pG P)) (ny (pG P) - 1)),
      (nth k (bv G) false), (nth k (bh G) false); auto.
  Qed.
  Lemma rub_rate mu : rubs (pB P) mu -> 0 <= mu -> forall k, (k < n)%nat -> k <> 1%nat ->
    vx (nth k (gqd G') v0) = (if nth k (bv G') false then 0 else
       if nth k (bh G') false then coulomb mu (net_force P G AX k) (net_force P G AY k) else net_force P G AX k) /\
    vy (nth k (gqd G') v0) = (if nth k (bh G') false then 0 else
       if nth k (bv G') false then coulomb mu (net_force P G AY k) (net_force P G AX k) else net_force P G AY k) /\
    vz (nth k (gqd G') v0) = net_force P G AZ k.
  Proof.
    intros RU Hmu k Hk H1. rewrite um_qd, um_bv, um_bh. destruct masks_after_len as [M1 M2].
    unfold rates_after. rewrite (truthy_some mu RU). pose proof RU as (-> & _).
    destruct HS as (A & B & _ & _ & _ & C & D & _). fold n in A, B, C, D.
    destruct (qd_comp P G k AX) as [VX L]; [lia|]. cbv zeta in VX, L.
    destruct (qd_comp P G k AY) as [VY _]; [lia|]. cbv zeta in VY.
    destruct (qd_comp P G k AZ) as [VZ _]; [lia|]. cbv zeta in VZ.
    set (qd := if p_damping P then _ else _) in *.
    destruct masks_after as [v h]. cbn [fst snd] in *.
    pose proof (friction_len mu v h qd) as FL.
    destruct (mask_x_comp v (friction mu v h qd) k) as (X1 & X2 & X3 & X4); [lia|].
    destruct (mask_y_comp h (mask_x v (friction mu v h qd)) k) as (Y1 & Y2 & Y3 & Y4); [lia|].
    rewrite Y1, Y2, Y3, X1, X2, X3. rewrite fric_nth by lia. cbn zeta. cbn [vx vy vz].
    cbn [comp] in VX, VY, VZ. rewrite VX, VY, VZ.
    split; [|split; auto].
    - destruct (nth k v false), (nth k h false); rewrite ?coulomb_eq by auto; lra.
    - destruct (nth k v false), (nth k h false); rewrite ?coulomb_eq by auto; lra.
  Qed.

  (** Momenta. *)
  Lemma um_q : forall k, (k < n)%nat ->
    (vx (nth k (gq G') v0) = if (conveyor (pB P) && nth k (bconv G) false)%bool
        then match p_v0 P with Some w => w | None => 0 end * nth k (gm G) 0
        else vx (nth k (gq G) v0) + p_dt P * vx (nth k (gqd G') v0)) /\
    (forall a, a <> AX -> comp a (nth k (gq G') v0) = comp a (nth k (gq G) v0) + p_dt P * comp a (nth k (gqd G') v0)).
  Proof.
    intros k Hk. rewrite um_qd. destruct um_shape as (_ & w & Hw & ->).
    destruct HS as (_ & _ & Cc & Cm & Cq & _). fold n in Cc, Cm, Cq. pose proof rates_len as RL.
    set (q := zipw _ (gq G) rates_after). cbv zeta.
    assert (Lq : length q = n) by (unfold q; rewrite zipw_length; lia).
    assert (Vq : forall a, comp a (nth k q v0) = comp a (nth k (gq G) v0) + p_dt P * comp a (nth k rates_after v0)).
    { intros a. unfold q. rewrite (zipw_nth _ _ _ _ v0 v0 v0) by lia. rewrite comp_vadd, comp_vmuls. unR. lra. }
    destruct (conveyor (pB P)); cbn [andb].
    - rewrite (zipw_nth _ _ _ _ (false, v0) 0 v0) by (rewrite ?combine_length; lia).
      rewrite combine_nth by lia. cbn [fst snd]. rewrite (Hw eq_refl).
      destruct (nth k (bconv G) false).
      + split; [reflexivity|]. intros a Ha. rewrite <- Vq. destruct a; [congruence| |]; reflexivity.
      + split; [apply (Vq AX)|]. intros; apply Vq.
    - split; [apply (Vq AX)|]. intros; apply Vq.
  Qed.
  Lemma um_q_len : length (gq G') = n.
  Proof.
    destruct um_shape as (_ & w & Hw & ->).
    destruct HS as (_ & _ & Cc & Cm & Cq & _). fold n in Cc, Cm, Cq. pose proof rates_len as RL.
    cbv zeta. destruct (conveyor (pB P)); rewrite !zipw_length, ?combine_length, ?zipw_length; lia.
  Qed.
End UM.
