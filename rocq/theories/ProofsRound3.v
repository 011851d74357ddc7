(** * Rounded sums on the grid: points and nodes. *)
From Coq Require Import ZArith Reals List Bool Arith Lra Lia.
From RecordUpdate Require Import RecordUpdate.
From Verif Require Import State NumR NumRd Spec SpecRound LibList LibR ModelGrid ModelConstit ModelParticle ModelMPList ModelMain
  ProofsGrid ProofsMap ProofsRound ProofsRound2.
Import ListNotations.
Local Open Scope R_scope.

(** ** Layout *)
Definition sel (c i : nat) : option bool := if Nat.eqb c i then Some false else if Nat.eqb c (S i) then Some true else None.
Definition rr (a b : bool) : nat := if b then (if a then 2 else 3)%nat else (if a then 1 else 0)%nat.
Definition pick (c d i j : nat) (val : nat -> R) : list R :=
  match sel c i, sel d j with Some a, Some b => [val (rr a b)] | _, _ => [] end.

Lemma near_pyi n m i j r : (S i < n)%nat -> (S j < m)%nat -> (r < 4)%nat ->
  pyi (n * m) (nearby (Z.of_nat (i + j * n)) r n) = Some (match r with 0 => i + j * n | 1 => S i + j * n | 2 => S i + S j * n | _ => i + S j * n end)%nat.
Proof.
  intros Hi Hj Hr. assert (B : (S i + S j * n < n * m)%nat) by nia.
  destruct r as [|[|[|[|r]]]]; [| | | |lia]; unfold nearby.
  - replace (Z.of_nat (i + j * n) + Z.of_nat 0)%Z with (Z.of_nat (i + j * n)) by lia. apply pyi_nonneg. nia.
  - replace (Z.of_nat (i + j * n) + Z.of_nat 1)%Z with (Z.of_nat (S i + j * n)) by lia. apply pyi_nonneg. nia.
  - replace (Z.of_nat (i + j * n) + Z.of_nat n + 3 - Z.of_nat 2)%Z with (Z.of_nat (S i + S j * n)) by lia. apply pyi_nonneg. lia.
  - replace (Z.of_nat (i + j * n) + Z.of_nat n + 3 - Z.of_nat 3)%Z with (Z.of_nat (i + S j * n)) by lia. apply pyi_nonneg. lia.
Qed.
Lemma node_eqb n k i j : (i < n)%nat -> Nat.eqb k (i + j * n) = Nat.eqb (k mod n) i && Nat.eqb (k / n) j.
Proof.
  intros Hi. assert (n <> 0)%nat by lia. pose proof (Nat.div_mod k n H) as D. pose proof (Nat.mod_upper_bound k n H) as U.
  destruct (Nat.eqb_spec (k mod n) i) as [E|E], (Nat.eqb_spec (k / n) j) as [F|F]; cbn [andb]; destruct (Nat.eqb_spec k (i + j * n)) as [K|K]; auto; exfalso.
  - apply K. rewrite D, E, F. ring.
  - apply F. rewrite K, Nat.div_add, Nat.div_small by lia. reflexivity.
  - apply E. rewrite K, Nat.mod_add, Nat.mod_small by lia. reflexivity.
  - apply E. rewrite K, Nat.mod_add, Nat.mod_small by lia. reflexivity.
Qed.
Lemma drop_pick n m i j k val : (S i < n)%nat -> (S j < m)%nat ->
  drop (n * m) n (Z.of_nat (i + j * n)) k val = pick (k mod n) (k / n) i j val.
Proof.
  intros Hi Hj. unfold drop. cbn [flat_map]. rewrite !(near_pyi n m i j) by (assumption || lia). rewrite app_nil_r.
  rewrite !node_eqb by lia. unfold pick, sel.
  destruct (Nat.eqb_spec (k mod n) i) as [E|E], (Nat.eqb_spec (k / n) j) as [F|F]; cbn [andb app];
    destruct (Nat.eqb_spec (k mod n) (S i)) as [E'|E'], (Nat.eqb_spec (k / n) (S j)) as [F'|F']; try lia; reflexivity.
Qed.

Definition part_w (i : nat) (al : R) (c : nat) : R := if Nat.eqb c i then 1 - al else if Nat.eqb c (S i) then al else 0.
Lemma pick_corner c d i j al be w : 
  Rsum (pick c d i j (fun r => corner_w al be r * w)) = part_w i al c * part_w j be d * w /\
  Rsum (map Rabs (pick c d i j (fun r => corner_w al be r * w))) = Rabs (part_w i al c * part_w j be d * w).
Proof.
  unfold pick, sel, part_w. destruct (Nat.eqb c i), (Nat.eqb c (S i)), (Nat.eqb d j), (Nat.eqb d (S j)); cbn [rr corner_w Rsum fold_right map];
    rewrite ?Rplus_0_r, ?Rmult_0_r, ?Rmult_0_l, ?Rabs_R0; split; (reflexivity || f_equal; ring || ring).
Qed.

Lemma pick_one c d i j val : (length (pick c d i j val) <= 1)%nat /\
  (length (pick c d i j val) <> 0%nat -> (c = i \/ c = S i) /\ (d = j \/ d = S j)).
Proof.
  unfold pick, sel. destruct (Nat.eqb_spec c i), (Nat.eqb_spec c (S i)), (Nat.eqb_spec d j), (Nat.eqb_spec d (S j)); cbn; split; try lia; intros; split; auto; lia.
Qed.

(** ** Tents *)
Lemma part_tent i al c s eps : 0 <= eps <= 1 / 32 -> - (2 * eps) <= al <= 1 + 2 * eps -> Rabs (al - (s - INR i)) <= 2 * eps ->
  - (2 * eps) <= s - INR i <= 1 + 2 * eps ->
  Rabs (part_w i al c - tent (s - INR c)) <= 6 * eps.
Proof.
  intros He Ha Hd Hs. apply Rabs_le_inv in Hd. unfold part_w.
  destruct (Nat.eqb_spec c i) as [->|N1].
  - apply Rabs_le. unfold tent, Rmax, Rabs. destruct (Rcase_abs (s - INR i)); destruct (Rle_dec _ _); lra.
  - destruct (Nat.eqb_spec c (S i)) as [->|N2].
    + rewrite S_INR in *. apply Rabs_le. unfold tent, Rmax, Rabs. destruct (Rcase_abs (s - (INR i + 1))); destruct (Rle_dec _ _); lra.
    + assert (K : 1 - 2 * eps <= Rabs (s - INR c)).
      { destruct (Nat.lt_ge_cases c i) as [L|L].
        - apply (le_INR (S c)) in L. rewrite S_INR in L. pose proof (Rle_abs (s - INR c)). lra.
        - assert (L2 : (S (S i) <= c)%nat) by lia. apply le_INR in L2. rewrite !S_INR in L2. pose proof (Rle_abs (- (s - INR c))) as Q. rewrite Rabs_Ropp in Q. lra. }
      apply Rabs_le. unfold tent, Rmax. destruct (Rle_dec _ _); lra.
Qed.
Lemma tent_01 t : 0 <= tent t <= 1.
Proof. unfold tent, Rmax. pose proof (Rabs_pos t). destruct (Rle_dec _ _); lra. Qed.

(** ** Sums over points *)
Lemma Rsum_flat {A B} (f : B -> R) (h : A -> list B) l : Rsum (map f (flat_map h l)) = Rsum (map (fun x => Rsum (map f (h x))) l).
Proof. induction l as [|a l IH]; cbn [flat_map map Rsum fold_right]; [reflexivity|]. rewrite map_app, Rsum_app, IH. reflexivity. Qed.
Lemma heap_sum f N nxx L k val : Rsum (map f (heap N nxx L k val)) = psum L (fun ph p => Rsum (map f (drop N nxx (pnstar p) k (val ph p)))).
Proof. unfold heap, psum. rewrite Rsum_flat. f_equal. apply map_ext. intros ph. apply Rsum_flat. Qed.
Lemma Forall2_flat {A B C} (Q : B -> C -> Prop) (f : A -> list B) (g : A -> list C) l : (forall x, In x l -> Forall2 Q (f x) (g x)) -> Forall2 Q (flat_map f l) (flat_map g l).
Proof. induction l as [|a l IH]; intros H; cbn; [constructor|]. apply Forall2_app; [apply H; left; reflexivity|apply IH; intros x Hx; apply H; right; exact Hx]. Qed.
Lemma drop_rel (Q : R -> R -> Prop) N nxx ns k f g : (forall r, (r < 4)%nat -> Q (f r) (g r)) -> Forall2 Q (drop N nxx ns k f) (drop N nxx ns k g).
Proof.
  intros H. unfold drop. apply Forall2_flat. intros r Hr. assert (r < 4)%nat by (cbn in Hr; intuition lia).
  destruct (pyi _ _) as [j|]; [|constructor]. destruct (Nat.eqb k j); constructor; auto.
Qed.
Lemma heap_rel (Q : R -> R -> Prop) N nxx L k f g : all_live L (fun ph p => forall r, (r < 4)%nat -> Q (f ph p r) (g ph p r)) -> Forall2 Q (heap N nxx L k f) (heap N nxx L k g).
Proof. intros H. unfold heap. apply Forall2_flat. intros ph Hph. apply Forall2_flat. intros p Hp. apply drop_rel. apply H; assumption. Qed.
Lemma drop_total N nxx ns f val : (forall r, (r < 4)%nat -> exists j, pyi N (nearby ns r nxx) = Some j) ->
  fsum N (fun k => Rsum (map f (drop N nxx ns k val))) = fsum 4 (fun r => f (val r)).
Proof.
  intros H. destruct (H 0%nat ltac:(lia)) as [j0 E0], (H 1%nat ltac:(lia)) as [j1 E1], (H 2%nat ltac:(lia)) as [j2 E2], (H 3%nat ltac:(lia)) as [j3 E3].
  transitivity (fsum N (fun k => (if Nat.eqb k j0 then f (val 0%nat) else 0) + ((if Nat.eqb k j1 then f (val 1%nat) else 0) + ((if Nat.eqb k j2 then f (val 2%nat) else 0) + (if Nat.eqb k j3 then f (val 3%nat) else 0))))).
  - apply fsum_ext. intros k _. unfold drop. cbn [flat_map]. rewrite E0, E1, E2, E3, app_nil_r, !map_app, !Rsum_app.
    repeat (f_equal; [destruct (Nat.eqb _ _); cbn; lra|]). destruct (Nat.eqb _ _); cbn; lra.
  - rewrite !fsum_plus, !fsum_delta by (eapply pyi_lt; eassumption). cbn. lra.
Qed.

(** ** Points that are where they should be, up to [ex] and [ey] cells *)
Definition placed_line (eps : R) (i : nat) (al s : R) : Prop :=
  - (2 * eps) <= al <= 1 + 2 * eps /\ Rabs (al - (s - INR i)) <= 2 * eps /\ - (2 * eps) <= s - INR i <= 1 + 2 * eps.
Definition placed (P : gridp R) (ex ey : R) (al be : particle R -> R) (p : particle R) : Prop :=
  exists i j, (S i < nx P)%nat /\ (S j < ny P)%nat /\ pnstar p = Z.of_nat (i + j * nx P) /\
    placed_line ex i (al p) ((vx (px p) - x_m P) / cell_w P) /\ placed_line ey j (be p) ((vy (px p) - y_m P) / cell_h P).

Lemma part_abs eps i al s c : 0 <= eps -> placed_line eps i al s -> Rabs (part_w i al c) <= 1 + 2 * eps.
Proof. intros He (A & _). unfold part_w. apply Rabs_le. destruct (Nat.eqb c i); [lra|]. destruct (Nat.eqb c (S i)); lra. Qed.
Lemma part_all eps al : 0 <= eps -> - (2 * eps) <= al <= 1 + 2 * eps -> Rabs (1 - al) + Rabs al <= 1 + 4 * eps.
Proof. intros He A. unfold Rabs. destruct (Rcase_abs _), (Rcase_abs _); lra. Qed.

Section Sums.
  Context (rd : R -> R) (u : R) (HR : rounding rd u) (P : gridp R) (HP : proper P) (ex ey : R) (Hex : 0 <= ex <= 1 / 32) (Hey : 0 <= ey <= 1 / 32).
  Context (al be : particle R -> R) (L : list (phase R)) (HL : all_live L (fun _ p => placed P ex ey al be p)).
  Context (w : phase R -> particle R -> R) (put : phase R -> particle R -> nat -> R) (g : R) (Hg : 1 <= g).
  Context (Hput : all_live L (fun ph p => forall r, (r < 4)%nat -> within g (put ph p r) (corner_w (al p) (be p) r * w ph p))).
  Let N := nodes P.
  Let exact ph p r := corner_w (al p) (be p) r * w ph p.

  Lemma cells_pos : 0 < cell_w P /\ 0 < cell_h P.
  Proof.
    destruct HP as (H1 & H2 & H3 & H4). apply (le_INR 2) in H1. apply (le_INR 2) in H2. cbn in H1, H2.
    unfold cell_w, cell_h. split; apply Rdiv_lt_0_compat; lra.
  Qed.
  Lemma line_near m h x eps i al' c : 0 < h -> 0 <= eps <= 1 / 32 -> placed_line eps i al' ((x - m) / h) -> (c = i \/ c = S i) -> Rabs (x - (m + INR c * h)) <= 2 * h.
  Proof.
    intros Hh He (_ & _ & S1) Hc.
    assert (Q : x - (m + INR c * h) = ((x - m) / h - INR c) * h) by (field; lra). rewrite Q, Rabs_mult, (Rabs_pos_eq h) by lra. apply Rmult_le_compat_r; [lra|].
    apply Rabs_le. destruct Hc as [->| ->]; rewrite ?S_INR; lra.
  Qed.
  Lemma hat_line m h x c : 0 < h -> (x - (m + INR c * h)) / h = (x - m) / h - INR c.
  Proof. intros. field. lra. Qed.

  Lemma point_node ph p k : In ph L -> In p (live ph) -> (k < N)%nat ->
    let e := exact ph p in
    (length (drop N (nx P) (pnstar p) k e) <= if near_node P k (px p) then 1 else 0)%nat /\
    Rsum (map Rabs (drop N (nx P) (pnstar p) k e)) <= (1 + 2 * ex) * (1 + 2 * ey) * (if near_node P k (px p) then Rabs (w ph p) else 0) /\
    Rabs (Rsum (drop N (nx P) (pnstar p) k e) - w ph p * hat P (px p) k) <= 7 * (ex + ey) * (if near_node P k (px p) then Rabs (w ph p) else 0).
  Proof.
    intros Hph Hp Hk e. destruct (HL ph p Hph Hp) as (i & j & Hi & Hj & Hn & Lx & Ly). destruct cells_pos as [Wp Hp'].
    unfold N, nodes in *. rewrite Hn, drop_pick by assumption.
    unfold e, exact. set (c := (k mod nx P)%nat). set (d := (k / nx P)%nat).
    destruct (pick_one c d i j (fun r => corner_w (al p) (be p) r * w ph p)) as [O1 O2].
    destruct (pick_corner c d i j (al p) (be p) (w ph p)) as [S1 S2]. rewrite S2.
    pose proof (part_abs _ _ _ _ c (proj1 Hex) Lx) as Ax. pose proof (part_abs _ _ _ _ d (proj1 Hey) Ly) as Ay.
    pose proof (part_tent i (al p) c _ ex Hex (proj1 Lx) (proj1 (proj2 Lx)) (proj2 (proj2 Lx))) as Tx.
    pose proof (part_tent j (be p) d _ ey Hey (proj1 Ly) (proj1 (proj2 Ly)) (proj2 (proj2 Ly))) as Ty.
    assert (HH : hat P (px p) k = tent ((vx (px p) - x_m P) / cell_w P - INR c) * tent ((vy (px p) - y_m P) / cell_h P - INR d)).
    { unfold hat, node_x, node_y. fold c d. unfold col, row. fold c d. rewrite !hat_line by assumption. reflexivity. }
    rewrite HH, S1. set (tx := tent ((vx (px p) - x_m P) / cell_w P - INR c)) in *. set (ty := tent ((vy (px p) - y_m P) / cell_h P - INR d)) in *.
    set (wx := part_w i (al p) c) in *. set (wy := part_w j (be p) d) in *.
    assert (FAR : near_node P k (px p) = false -> length (pick c d i j (fun r => corner_w (al p) (be p) r * w ph p)) = 0%nat /\ wx * wy = 0 /\ tx * ty = 0).
    { intros F. assert (NC : ~ ((c = i \/ c = S i) /\ (d = j \/ d = S j))).
      { intros [C D]. unfold near_node, node_x, node_y, col, row in F. fold c d in F.
        destruct (Rle_dec _ _) as [_|n1]; [destruct (Rle_dec _ _) as [_|n2]; [discriminate|]|].
        - apply n2. apply (line_near _ _ _ ey j (be p)); assumption.
        - apply n1. apply (line_near _ _ _ ex i (al p)); assumption. }
      split; [|split].
      - destruct (Nat.eq_dec (length (pick c d i j (fun r => corner_w (al p) (be p) r * w ph p))) 0); [assumption|]. exfalso. apply NC. auto.
      - unfold wx, wy, part_w. destruct (Nat.eqb_spec c i); [destruct (Nat.eqb_spec d j); [exfalso; tauto|destruct (Nat.eqb_spec d (S j)); [exfalso; tauto|ring]]|].
        destruct (Nat.eqb_spec c (S i)); [|ring]. destruct (Nat.eqb_spec d j); [exfalso; tauto|destruct (Nat.eqb_spec d (S j)); [exfalso; tauto|ring]].
      - unfold near_node, node_x, node_y, col, row in F. fold c d in F.
        destruct (Rle_dec _ _) as [_|n1]; [destruct (Rle_dec _ _) as [_|n2]; [discriminate|]|].
        + enough (ty = 0) as -> by ring. unfold ty. rewrite <- hat_line by assumption. unfold tent, Rmax. destruct (Rle_dec _ _) as [K|]; [|reflexivity]. exfalso. apply n2.
          unfold Rdiv in K. rewrite Rabs_mult, Rabs_inv, (Rabs_pos_eq (cell_h P)) in K by lra.
          apply Rmult_le_reg_r with (/ cell_h P); [apply Rinv_0_lt_compat; assumption|]. rewrite (Rmult_assoc 2), Rinv_r by lra. lra.
        + enough (tx = 0) as -> by ring. unfold tx. rewrite <- hat_line by assumption. unfold tent, Rmax. destruct (Rle_dec _ _) as [K|]; [|reflexivity]. exfalso. apply n1.
          unfold Rdiv in K. rewrite Rabs_mult, Rabs_inv, (Rabs_pos_eq (cell_w P)) in K by lra.
          apply Rmult_le_reg_r with (/ cell_w P); [apply Rinv_0_lt_compat; assumption|]. rewrite (Rmult_assoc 2), Rinv_r by lra. lra. }
    destruct (near_node P k (px p)).
    - split; [exact O1|]. split.
      + rewrite !Rabs_mult. apply Rmult_le_compat_r; [apply Rabs_pos|]. apply Rmult_le_compat; auto using Rabs_pos.
      + replace (wx * wy * w ph p - w ph p * (tx * ty)) with ((wx * (wy - ty) + (wx - tx) * ty) * w ph p) by ring. rewrite Rabs_mult. apply Rmult_le_compat_r; [apply Rabs_pos|].
        eapply Rle_trans; [apply Rabs_triang|]. rewrite !Rabs_mult. pose proof (tent_01 ((vy (px p) - y_m P) / cell_h P - INR d)) as T1. fold ty in T1. rewrite (Rabs_pos_eq ty) by lra.
        apply Rle_trans with ((1 + 2 * ex) * (6 * ey) + 6 * ex * 1); [|nra]. apply Rplus_le_compat; apply Rmult_le_compat; auto using Rabs_pos; lra.
    - destruct (FAR eq_refl) as (F1 & F2 & F3). split; [lia|]. rewrite F2, F3, !Rmult_0_l, !Rmult_0_r, Rminus_0_r, Rabs_R0. lra.
  Qed.

  Lemma heap_len k : (k < N)%nat -> (length (heap N (nx P) L k exact) <= crowd P L k)%nat.
  Proof.
    intros Hk. unfold crowd, heap.
    enough (A : forall M, (forall ph p, In ph M -> In p (live ph) -> (length (drop N (nx P) (pnstar p) k (exact ph p)) <= if near_node P k (px p) then 1 else 0)%nat) ->
      (length (flat_map (fun ph => flat_map (fun p => drop N (nx P) (pnstar p) k (exact ph p)) (live ph)) M) <= length (filter (fun p => near_node P k (px p)) (flat_map live M)))%nat).
    { apply A. intros ph p H1 H2. apply (point_node ph p k H1 H2 Hk). }
    induction M as [|ph M IH]; intros H; cbn [flat_map]; [cbn; lia|]. rewrite filter_app, !app_length. apply Nat.add_le_mono; [|apply IH; intros; apply H; [right|]; assumption].
    assert (H' : forall p, In p (live ph) -> (length (drop N (nx P) (pnstar p) k (exact ph p)) <= if near_node P k (px p) then 1 else 0)%nat) by (intros p Hp; apply H; [left; reflexivity|exact Hp]).
    revert H'. generalize (live ph). induction l as [|p l IHl]; intros H'; cbn [flat_map filter]; [cbn; lia|]. rewrite app_length.
    specialize (IHl (fun p Hp => H' p (or_intror Hp))). specialize (H' p (or_introl eq_refl)). destruct (near_node P k (px p)); cbn [length]; lia.
  Qed.

  Lemma node_bound k c : (k < N)%nat -> (crowd P L k <= c)%nat ->
    Rabs (acc rd (heap N (nx P) L k put) 0 - psum L (fun ph p => w ph p * hat P (px p) k)) <=
      (((1 + u) ^ c * g - 1) * ((1 + 2 * ex) * (1 + 2 * ey)) + 7 * (ex + ey)) * near_sum P L k (fun ph p => Rabs (w ph p)).
  Proof.
    intros Hk Hc. assert (Hu : 0 <= u <= 1 / 100) by apply HR.
    pose proof (acc_within rd u HR g _ _ Hg (heap_rel (within g) N (nx P) L k put exact Hput)) as A.
    set (hs := heap N (nx P) L k exact) in *.
    assert (LE : (1 + u) ^ length hs <= (1 + u) ^ c) by (apply Rle_pow; [lra|pose proof (heap_len k Hk); fold hs in H; lia]).
    assert (P1 : 1 <= (1 + u) ^ length hs) by (apply pow_R1_Rle; lra).
    assert (S1 : Rsum (map Rabs hs) <= (1 + 2 * ex) * (1 + 2 * ey) * near_sum P L k (fun ph p => Rabs (w ph p))).
    { unfold hs. rewrite heap_sum. unfold near_sum. rewrite <- psum_scal. apply psum_le. intros ph p H1 H2. apply (point_node ph p k H1 H2 Hk). }
    assert (S2 : Rabs (Rsum hs - psum L (fun ph p => w ph p * hat P (px p) k)) <= 7 * (ex + ey) * near_sum P L k (fun ph p => Rabs (w ph p))).
    { unfold hs. rewrite <- (map_id (heap _ _ _ _ _)), heap_sum. unfold near_sum. rewrite <- psum_scal.
      apply Rabs_le. pose proof (fun ph p H1 H2 => Rabs_le_inv _ _ (proj2 (proj2 (point_node ph p k H1 H2 Hk)))) as Q. split.
      - apply Rplus_le_reg_r with (psum L (fun ph p => w ph p * hat P (px p) k) + psum L (fun ph p => 7 * (ex + ey) * (if near_node P k (px p) then Rabs (w ph p) else 0))).
        replace (- psum L (fun ph p => 7 * (ex + ey) * (if near_node P k (px p) then Rabs (w ph p) else 0)) + (psum L (fun ph p => w ph p * hat P (px p) k) + psum L (fun ph p => 7 * (ex + ey) * (if near_node P k (px p) then Rabs (w ph p) else 0)))) with (psum L (fun ph p => w ph p * hat P (px p) k)) by ring.
        match goal with |- _ <= ?s - ?h + (?h + ?b) => replace (s - h + (h + b)) with (s + b) by ring end. rewrite <- psum_plus. apply psum_le. intros ph p H1 H2. rewrite map_id. specialize (Q ph p H1 H2). cbv zeta in Q. lra.
      - apply Rplus_le_reg_r with (psum L (fun ph p => w ph p * hat P (px p) k)).
        match goal with |- ?s - ?h + ?h <= _ => replace (s - h + h) with s by ring end. rewrite <- psum_plus. apply psum_le. intros ph p H1 H2. rewrite map_id. specialize (Q ph p H1 H2). cbv zeta in Q. lra. }
    match goal with |- Rabs (?x - ?y) <= _ => replace (x - y) with ((x - Rsum hs) + (Rsum hs - y)) by ring end.
    eapply Rle_trans; [apply Rabs_triang|].
    assert (Z : 0 <= Rsum (map Rabs hs)) by (apply Rsum_nonneg; intros; apply Rabs_pos).
    assert (F : ((1 + u) ^ length hs * g - 1) * Rsum (map Rabs hs) <= ((1 + u) ^ c * g - 1) * ((1 + 2 * ex) * (1 + 2 * ey) * near_sum P L k (fun ph p => Rabs (w ph p)))).
    { apply Rmult_le_compat; [nra|exact Z| |exact S1]. apply Rplus_le_compat_r. apply Rmult_le_compat_r; lra. }
    lra.
  Qed.

  Lemma node_abs k c : (k < N)%nat -> (crowd P L k <= c)%nat ->
    Rabs (acc rd (heap N (nx P) L k put) 0) <= (1 + u) ^ c * g * ((1 + 2 * ex) * (1 + 2 * ey)) * near_sum P L k (fun ph p => Rabs (w ph p)).
  Proof.
    intros Hk Hc. assert (Hu : 0 <= u <= 1 / 100) by apply HR.
    pose proof (acc_within rd u HR g _ _ Hg (heap_rel (within g) N (nx P) L k put exact Hput)) as A.
    set (hs := heap N (nx P) L k exact) in *.
    assert (LE : (1 + u) ^ length hs <= (1 + u) ^ c) by (apply Rle_pow; [lra|pose proof (heap_len k Hk); fold hs in H; lia]).
    assert (P1 : 1 <= (1 + u) ^ length hs) by (apply pow_R1_Rle; lra).
    assert (S1 : Rsum (map Rabs hs) <= (1 + 2 * ex) * (1 + 2 * ey) * near_sum P L k (fun ph p => Rabs (w ph p))).
    { unfold hs. rewrite heap_sum. unfold near_sum. rewrite <- psum_scal. apply psum_le. intros ph p H1 H2. apply (point_node ph p k H1 H2 Hk). }
    assert (Z : 0 <= Rsum (map Rabs hs)) by (apply Rsum_nonneg; intros; apply Rabs_pos).
    assert (T : Rabs (Rsum hs) <= Rsum (map Rabs hs)).
    { clear. induction hs as [|x l IH]; cbn [map Rsum fold_right]; [rewrite Rabs_R0; lra|]. fold (Rsum l) (Rsum (map Rabs l)). eapply Rle_trans; [apply Rabs_triang|]. lra. }
    match goal with |- Rabs ?x <= _ => replace x with ((x - Rsum hs) + Rsum hs) by ring end.
    eapply Rle_trans; [apply Rabs_triang|]. apply Rle_trans with ((1 + u) ^ length hs * g * Rsum (map Rabs hs)); [lra|].
    rewrite (Rmult_assoc ((1 + u) ^ c * g)). apply Rmult_le_compat; [nra|exact Z| |exact S1]. apply Rmult_le_compat_r; lra.
  Qed.

  Lemma total_bound c : (forall k, (k < N)%nat -> (crowd P L k <= c)%nat) ->
    Rabs (fsum N (fun k => acc rd (heap N (nx P) L k put) 0) - psum L w) <=
      ((1 + u) ^ c * g - 1) * ((1 + 4 * ex) * (1 + 4 * ey)) * psum L (fun ph p => Rabs (w ph p)).
  Proof.
    intros Hc. assert (Hu : 0 <= u <= 1 / 100) by apply HR.
    assert (T : forall ph p, In ph L -> In p (live ph) -> forall r, (r < 4)%nat -> exists j, pyi N (nearby (pnstar p) r (nx P)) = Some j).
    { intros ph p H1 H2 r Hr. destruct (HL ph p H1 H2) as (i & j & Hi & Hj & Hn & _). rewrite Hn. eexists. apply near_pyi; assumption. }
    assert (E1 : fsum N (fun k => Rsum (heap N (nx P) L k exact)) = psum L w).
    { transitivity (fsum N (fun k => Rsum (map (fun x => x) (heap N (nx P) L k exact)))); [apply fsum_ext; intros; rewrite map_id; reflexivity|].
      transitivity (fsum N (fun k => psum L (fun ph p => Rsum (map (fun x => x) (drop N (nx P) (pnstar p) k (exact ph p)))))); [apply fsum_ext; intros; apply heap_sum|].
      rewrite psum_swap. apply psum_ext. intros ph p H1 H2. rewrite drop_total by (apply (T ph p H1 H2)). unfold exact. rewrite fsum_scal_r, corner_w_sum. ring. }
    assert (E2 : fsum N (fun k => Rsum (map Rabs (heap N (nx P) L k exact))) <= (1 + 4 * ex) * (1 + 4 * ey) * psum L (fun ph p => Rabs (w ph p))).
    { apply Rle_trans with (psum L (fun ph p => fsum 4 (fun r => Rabs (exact ph p r)))).
      - right. transitivity (fsum N (fun k => psum L (fun ph p => Rsum (map Rabs (drop N (nx P) (pnstar p) k (exact ph p)))))); [apply fsum_ext; intros; apply heap_sum|].
        rewrite psum_swap. apply psum_ext. intros ph p H1 H2. apply drop_total. apply (T ph p H1 H2).
      - rewrite <- psum_scal. apply psum_le. intros ph p H1 H2. destruct (HL ph p H1 H2) as (i & j & _ & _ & _ & (Ax & _) & (Ay & _)).
        pose proof (part_all ex _ (proj1 Hex) Ax) as Qx. pose proof (part_all ey _ (proj1 Hey) Ay) as Qy. unfold exact. cbn [fsum corner_w]. rewrite !Rabs_mult.
        replace (0 + Rabs (1 - al p) * Rabs (1 - be p) * Rabs (w ph p) + Rabs (al p) * Rabs (1 - be p) * Rabs (w ph p) + Rabs (al p) * Rabs (be p) * Rabs (w ph p) + Rabs (1 - al p) * Rabs (be p) * Rabs (w ph p)) with ((Rabs (1 - al p) + Rabs (al p)) * (Rabs (1 - be p) + Rabs (be p)) * Rabs (w ph p)) by ring.
        apply Rmult_le_compat_r; [apply Rabs_pos|]. pose proof (Rabs_pos (1 - al p)). pose proof (Rabs_pos (al p)). pose proof (Rabs_pos (1 - be p)). pose proof (Rabs_pos (be p)). apply Rmult_le_compat; lra. }
    rewrite <- E1. rewrite <- fsum_minus.
    assert (TR : forall n f, Rabs (fsum n f) <= fsum n (fun k => Rabs (f k))).
    { induction n as [|n IH]; intros f; cbn [fsum]; [rewrite Rabs_R0; lra|]. eapply Rle_trans; [apply Rabs_triang|]. specialize (IH f). lra. }
    eapply Rle_trans; [apply TR|]. eapply Rle_trans; [apply fsum_le; intros k Hk; apply (acc_within rd u HR g _ _ Hg (heap_rel (within g) N (nx P) L k put exact Hput))|].
    apply Rle_trans with (fsum N (fun k => ((1 + u) ^ c * g - 1) * Rsum (map Rabs (heap N (nx P) L k exact)))).
    - apply fsum_le. intros k Hk. apply Rmult_le_compat_r; [apply Rsum_nonneg; intros; apply Rabs_pos|].
      assert ((1 + u) ^ length (heap N (nx P) L k exact) <= (1 + u) ^ c) by (apply Rle_pow; [lra|pose proof (heap_len k Hk); specialize (Hc k Hk); lia]).
      apply Rplus_le_compat_r, Rmult_le_compat_r; lra.
    - rewrite fsum_scal. rewrite Rmult_assoc. apply Rmult_le_compat_l; [|exact E2]. assert (1 <= (1 + u) ^ c) by (apply pow_R1_Rle; lra). nra.
  Qed.
End Sums.
