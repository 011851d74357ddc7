(** * Points spread evenly over cells: sums of tent functions over them. *)
From Coq Require Import ZArith Reals List Bool Arith Lra Lia.
From Verif Require Import State NumR Spec SpecLaws SpecStep SpecScheme SpecRing LibList LibR ModelGrid ModelInputs ModelConstit ModelParticle ModelMPList
  ModelIntegr ModelMain ProofsGrid ProofsMap ProofsP2G ProofsWalls ProofsLaws ProofsInOut ProofsHist Concrete
  ThmMapping ThmWalls ThmLaws ThmInOut ThmHist ProofsStep ProofsPoints ThmStep ThmBalance ThmEnergy ThmFall ThmGeo ProofsScheme ThmScheme.
Import ListNotations.
Local Open Scope R_scope.

(** ** One direction: [c] points per cell of width [w], from [lo] on *)
Section Line.
  Context (lo w : R) (c : nat) (Hw : 0 < w) (Hc : (1 <= c)%nat).
  Definition pt (q : nat) : R := lo + (INR q + 1/2) * (w / INR c).
  Let u (r : nat) : R := (INR r + 1/2) / INR c.
  Lemma c_pos : 0 < INR c. Proof. apply lt_0_INR. lia. Qed.
  Lemma u_in r : (r < c)%nat -> 0 < u r < 1.
  Proof.
    intros Hr. unfold u. pose proof c_pos. pose proof (pos_INR r). pose proof (le_INR (r + 1) c ltac:(lia)) as B. rewrite plus_INR in B. simpl INR in B.
    split; [apply Rdiv_lt_0_compat; lra|]. apply Rmult_lt_reg_r with (INR c); [lra|]. unfold Rdiv. rewrite Rmult_assoc, Rinv_l by lra. lra.
  Qed.
  Lemma pt_in_cell a r i : (pt (a * c + r) - (lo + INR i * w)) / w = INR a - INR i + u r.
  Proof. unfold pt, u. pose proof c_pos. rewrite plus_INR, mult_INR. field. lra. Qed.
  Lemma pt_cell a r : pt (a * c + r) = lo + INR a * w + w * u r.
  Proof. unfold pt, u. pose proof c_pos. rewrite plus_INR, mult_INR. field. lra. Qed.
  Lemma sum_half : forall n, fsum n (fun r => INR r + 1/2) = INR n * INR n / 2.
  Proof. induction n as [|n IH]; [simpl; lra|]. cbn [fsum]. rewrite IH, S_INR. field. Qed.
  Lemma sum_u : fsum c u = INR c / 2.
  Proof. rewrite (fsum_ext _ u (fun r => (INR r + 1/2) * / INR c)) by reflexivity. pose proof c_pos. rewrite fsum_scal_r, sum_half. field. lra. Qed.

  (** Only the two cells beside a node see its tent. *)
  Definition beside (m i : nat) (gr gl : R) : R := (if Nat.ltb i m then gr else 0) + (if (Nat.ltb 0 i && Nat.leb i m)%bool then gl else 0).
  Lemma two_cells m i (g : nat -> R) gr gl : (forall a, a <> i -> Datatypes.S a <> i -> g a = 0) -> (forall a, a = i -> g a = gr) -> (forall a, Datatypes.S a = i -> g a = gl) ->
    fsum m g = beside m i gr gl.
  Proof.
    intros H0 H1 H2. induction m as [|m IH].
    - cbn [fsum]. unfold beside. rewrite (proj2 (Nat.ltb_ge i 0)) by lia. destruct (Nat.ltb_spec 0 i); destruct (Nat.leb_spec i 0); cbn [andb]; try lia; lra.
    - cbn [fsum]. rewrite IH. unfold beside.
      destruct (Nat.eq_dec m i) as [E1|E1]; [|destruct (Nat.eq_dec (Datatypes.S m) i) as [E2|E2]].
      + rewrite (H1 m E1). subst i. destruct (Nat.ltb_spec m m), (Nat.ltb_spec m (Datatypes.S m)), (Nat.ltb_spec 0 m), (Nat.leb_spec m m), (Nat.leb_spec m (Datatypes.S m)); cbn [andb]; try lia; lra.
      + rewrite (H2 m E2). subst i. destruct (Nat.ltb_spec (Datatypes.S m) m), (Nat.ltb_spec (Datatypes.S m) (Datatypes.S m)), (Nat.ltb_spec 0 (Datatypes.S m)), (Nat.leb_spec (Datatypes.S m) m), (Nat.leb_spec (Datatypes.S m) (Datatypes.S m)); cbn [andb]; try lia; lra.
      + rewrite (H0 m E1 E2). destruct (Nat.ltb_spec i m), (Nat.ltb_spec i (Datatypes.S m)), (Nat.ltb_spec 0 i), (Nat.leb_spec i m), (Nat.leb_spec i (Datatypes.S m)); cbn [andb]; try lia; lra.
  Qed.
  Lemma apart a i : a <> i -> Datatypes.S a <> i -> INR a - INR i <= -2 \/ 1 <= INR a - INR i.
  Proof.
    intros A B. destruct (le_lt_dec a i) as [C|C].
    - left. pose proof (le_INR (a + 2) i ltac:(lia)) as D. rewrite plus_INR in D. simpl INR in D. lra.
    - right. pose proof (le_INR (i + 1) a ltac:(lia)) as D. rewrite plus_INR in D. simpl INR in D. lra.
  Qed.
  Lemma tent_at a r i : (r < c)%nat -> tent (INR a - INR i + u r) = if Nat.eqb a i then 1 - u r else if Nat.eqb (Datatypes.S a) i then u r else 0.
  Proof.
    intros Hr. pose proof (u_in r Hr) as Hu. unfold tent. destruct (Nat.eqb_spec a i) as [->|N1]; [|destruct (Nat.eqb_spec (Datatypes.S a) i) as [<-|N2]].
    - replace (INR i - INR i + u r) with (u r) by lra. rewrite Rabs_right by lra. apply Rmax_right. lra.
    - rewrite S_INR. replace (INR a - (INR a + 1) + u r) with (u r - 1) by lra. rewrite Rabs_left by lra. rewrite Rmax_right; lra.
    - destruct (apart a i N1 N2) as [D|D]; [rewrite Rabs_left by lra|rewrite Rabs_right by lra]; apply Rmax_left; lra.
  Qed.
  Lemma slope_at a r i : (r < c)%nat -> slope (INR a - INR i + u r) = if Nat.eqb a i then -1 else if Nat.eqb (Datatypes.S a) i then 1 else 0.
  Proof.
    intros Hr. pose proof (u_in r Hr) as Hu. unfold slope. destruct (Nat.eqb_spec a i) as [->|N1]; [|destruct (Nat.eqb_spec (Datatypes.S a) i) as [<-|N2]].
    - repeat (destruct (Rlt_dec _ _); try lra).
    - rewrite S_INR. repeat (destruct (Rlt_dec _ _); try lra).
    - destruct (apart a i N1 N2) as [D|D]; repeat (destruct (Rlt_dec _ _); try lra).
  Qed.

  Lemma tents m i : fsum (m * c) (fun q => tent ((pt q - (lo + INR i * w)) / w)) = beside m i (INR c / 2) (INR c / 2).
  Proof.
    rewrite fsum_rows.
    rewrite (fsum_ext m _ (fun a => fsum c (fun r => if Nat.eqb a i then 1 - u r else if Nat.eqb (Datatypes.S a) i then u r else 0))).
    2:{ intros a _. apply fsum_ext. intros r Hr. rewrite pt_in_cell. apply tent_at. exact Hr. }
    apply two_cells.
    - intros a A B. apply fsum_zero. intros r _. rewrite (proj2 (Nat.eqb_neq _ _) A), (proj2 (Nat.eqb_neq _ _) B). reflexivity.
    - intros a ->. rewrite Nat.eqb_refl. rewrite fsum_minus, fsum_const, sum_u. lra.
    - intros a <-. rewrite Nat.eqb_refl. rewrite (proj2 (Nat.eqb_neq a (Datatypes.S a))) by lia. apply sum_u.
  Qed.
  Lemma slopes m i : fsum (m * c) (fun q => slope ((pt q - (lo + INR i * w)) / w)) = beside m i (- INR c) (INR c).
  Proof.
    rewrite fsum_rows.
    rewrite (fsum_ext m _ (fun a => fsum c (fun r => if Nat.eqb a i then -1 else if Nat.eqb (Datatypes.S a) i then 1 else 0))).
    2:{ intros a _. apply fsum_ext. intros r Hr. rewrite pt_in_cell. apply slope_at. exact Hr. }
    apply two_cells.
    - intros a A B. apply fsum_zero. intros r _. rewrite (proj2 (Nat.eqb_neq _ _) A), (proj2 (Nat.eqb_neq _ _) B). reflexivity.
    - intros a ->. rewrite Nat.eqb_refl. rewrite fsum_const. lra.
    - intros a <-. rewrite Nat.eqb_refl. rewrite (proj2 (Nat.eqb_neq a (Datatypes.S a))) by lia. rewrite fsum_const. lra.
  Qed.
  Lemma depth_slopes m i : fsum (m * c) (fun q => (lo + INR m * w - pt q) * slope ((pt q - (lo + INR i * w)) / w)) =
    beside m i (- (INR c * ((INR m - INR i) * w - w / 2))) (INR c * ((INR m - INR i) * w + w / 2)).
  Proof.
    rewrite fsum_rows.
    rewrite (fsum_ext m _ (fun a => fsum c (fun r => ((INR m - INR a) * w - w * u r) * (if Nat.eqb a i then -1 else if Nat.eqb (Datatypes.S a) i then 1 else 0)))).
    2:{ intros a _. apply fsum_ext. intros r Hr. rewrite pt_in_cell, pt_cell, slope_at by exact Hr. f_equal. lra. }
    apply two_cells.
    - intros a A B. apply fsum_zero. intros r _. rewrite (proj2 (Nat.eqb_neq _ _) A), (proj2 (Nat.eqb_neq _ _) B). lra.
    - intros a ->. rewrite Nat.eqb_refl. rewrite fsum_scal_r, fsum_minus, fsum_const, fsum_scal, sum_u. lra.
    - intros a <-. rewrite Nat.eqb_refl. rewrite (proj2 (Nat.eqb_neq a (Datatypes.S a))) by lia. rewrite fsum_scal_r, fsum_minus, fsum_const, fsum_scal, sum_u, S_INR. lra.
  Qed.
  Lemma pt_in q m : (q < m * c)%nat -> lo < pt q < lo + INR m * w.
  Proof.
    intros Hq. unfold pt. pose proof c_pos as C. pose proof (pos_INR q). pose proof (le_INR (q + 1) (m * c) ltac:(lia)) as B. rewrite plus_INR, mult_INR in B. simpl INR in B.
    assert (D : 0 < w / INR c) by (apply Rdiv_lt_0_compat; lra). split; [nra|].
    replace (INR m * w) with (INR m * INR c * (w / INR c)) by (field; lra). nra.
  Qed.
End Line.

(** ** The lattice of the scripts *)
Lemma spread_cons (xp : list R) y yp : spread xp (y :: yp) = map (fun x => (x, y)) xp ++ spread xp yp.
Proof.
  unfold spread, tile, repeat_each. cbn [length repeat concat map].
  assert (E : forall (l r : list R) l' r', length l = length r -> combine (l ++ l') (r ++ r') = combine l r ++ combine l' r').
  { induction l as [|a l IH]; intros [|b r] l' r' HL; try discriminate HL; [reflexivity|]. cbn [app combine]. rewrite IH by (injection HL; auto). reflexivity. }
  rewrite E by (rewrite repeat_length; reflexivity). f_equal.
  clear. induction xp as [|x xp IH]; [reflexivity|]. cbn [length repeat combine map]. rewrite IH. reflexivity.
Qed.
Lemma Rsum_nth (f : R -> R) l : Rsum (map f l) = fsum (length l) (fun i => f (nth i l 0)).
Proof. induction l as [|a l IH]; [reflexivity|]. cbn [length map Rsum fold_right]. rewrite fsum_S. cbn [nth]. rewrite <- IH. reflexivity. Qed.
Lemma spread_sum (f : R * R -> R) xp yp : Rsum (map f (spread xp yp)) =
  fsum (length yp) (fun j => fsum (length xp) (fun i => f (nth i xp 0, nth j yp 0))).
Proof.
  induction yp as [|y yp IH]. - unfold spread. cbn. reflexivity.
  - rewrite spread_cons, map_app, Rsum_app, IH. cbn [length]. rewrite fsum_S. cbn [nth]. f_equal. rewrite map_map. apply (Rsum_nth (fun x => f (x, y))).
Qed.
Lemma spread_length (xp yp : list R) : length (spread xp yp) = (length yp * length xp)%nat.
Proof. induction yp as [|y yp IH]; [reflexivity|]. rewrite spread_cons, app_length, map_length, IH. reflexivity. Qed.
Lemma spread_in (xp yp : list R) xy : In xy (spread xp yp) -> In (fst xy) xp /\ In (snd xy) yp.
Proof.
  induction yp as [|y yp IH]; [intros []|]. rewrite spread_cons, in_app_iff, in_map_iff. intros [(x & <- & A)|A]; [split; [exact A|left; reflexivity]|].
  destruct (IH A) as [B C]. split; [exact B|right; exact C].
Qed.
Lemma in_linspace (a b : R) n x : In x (linspace a b n) -> exists i, (i < n)%nat /\ x = a + INR i * ((b - a) / (INR n - 1)).
Proof.
  intros A. apply (In_nth _ _ 0) in A. destruct A as (i & Hi & <-). rewrite linspace_len in Hi. exists i. split; [exact Hi|]. apply linspace_nth. exact Hi.
Qed.

Section Layer.
  Context (P : gridp R) (HP : proper P) (c rows : nat) (Hc : (1 <= c)%nat) (Hr : (1 <= rows <= ny P - 1)%nat).
  Lemma cw : 0 < cell_w P /\ x_M P = x_m P + INR (nx P - 1) * cell_w P.
  Proof using HP.
    clear Hc Hr. destruct HP as (A & B & C & D). pose proof (lt_INR 1 (nx P) ltac:(lia)) as X. simpl INR in X. unfold cell_w. rewrite minus_INR by lia. simpl INR.
    split; [apply Rdiv_lt_0_compat; lra|field; lra].
  Qed.
  Lemma ch : 0 < cell_h P /\ y_M P = y_m P + INR (ny P - 1) * cell_h P.
  Proof using HP.
    clear Hc Hr. destruct HP as (A & B & C & D). pose proof (lt_INR 1 (ny P) ltac:(lia)) as X. simpl INR in X. unfold cell_h. rewrite minus_INR by lia. simpl INR.
    split; [apply Rdiv_lt_0_compat; lra|field; lra].
  Qed.
  Lemma in_dx_w : in_dx P = cell_w P.
  Proof using HP. clear Hc Hr. unfold in_dx. destruct HP as (A & B & _). rewrite !linspace_nth by lia. unR. unfold cell_w. simpl INR. lra. Qed.
  Lemma in_dy_h : in_dy P = cell_h P.
  Proof using HP. clear Hc Hr. unfold in_dy. destruct HP as (A & B & _). rewrite !linspace_nth by lia. unR. unfold cell_h. simpl INR. lra. Qed.
  Lemma two_c : IZR (2 * Z.of_nat c) = 2 * INR c.
  Proof. rewrite mult_IZR, <- INR_IZR_INZ. reflexivity. Qed.
  (** The empty cells at the top. *)
  Definition head : R := INR (ny P - 1 - rows) * cell_h P.
  Definition xs : list R := linspace (x_m P + in_dx P / nofZ (2 * Z.of_nat c)) (x_M P - in_dx P / nofZ (2 * Z.of_nat c)) ((nx P - 1) * c).
  Definition ys : list R := linspace (y_m P + in_dy P / nofZ (2 * Z.of_nat c)) (y_M P - in_dy P / nofZ (2 * Z.of_nat c) - head) (rows * c).
  Lemma layer_eq : layer P c rows head = spread xs ys.
  Proof. reflexivity. Qed.
  Lemma even_spacing lo w m q : 0 < w -> (q < m * c)%nat ->
    lo + w / (2 * INR c) + INR q * ((lo + INR m * w - w / (2 * INR c) - (lo + w / (2 * INR c))) / (INR (m * c) - 1)) = pt lo w c q.
  Proof.
    intros Hw Hq. pose proof (c_pos c Hc) as C. unfold pt. destruct (Nat.eq_dec (m * c) 1) as [E|E].
    - assert (q = 0%nat) by lia. subst q. change (INR 0) with 0. rewrite Rmult_0_l. field. lra.
    - pose proof (lt_INR 1 (m * c) ltac:(lia)) as X. simpl INR in X. rewrite mult_INR in *. field. lra.
  Qed.
  Lemma xs_nth q : (q < (nx P - 1) * c)%nat -> nth q xs 0 = pt (x_m P) (cell_w P) c q.
  Proof.
    intros Hq. unfold xs. rewrite linspace_nth by exact Hq. rewrite in_dx_w. unR. rewrite two_c. destruct cw as [W E]. rewrite E. apply even_spacing; assumption.
  Qed.
  Lemma ys_nth q : (q < rows * c)%nat -> nth q ys 0 = pt (y_m P) (cell_h P) c q.
  Proof.
    intros Hq. unfold ys. rewrite linspace_nth by exact Hq. rewrite in_dy_h. unR. rewrite two_c. destruct ch as [W E].
    rewrite <- (even_spacing _ _ rows q W Hq). unfold head. rewrite E, (minus_INR (ny P - 1) rows) by lia. f_equal. f_equal. f_equal. lra.
  Qed.
  Lemma xs_len : length xs = ((nx P - 1) * c)%nat. Proof. apply linspace_len. Qed.
  Lemma ys_len : length ys = (rows * c)%nat. Proof. apply linspace_len. Qed.
  Lemma layer_length : length (layer P c rows head) = (rows * c * ((nx P - 1) * c))%nat.
  Proof. rewrite layer_eq, spread_length, xs_len, ys_len. reflexivity. Qed.
  Lemma layer_inside xy : In xy (layer P c rows head) -> x_m P < fst xy < x_M P /\ y_m P < snd xy < y_M P - head.
  Proof.
    rewrite layer_eq. intros A. apply spread_in in A. destruct A as [A B]. apply (In_nth _ _ 0) in A. apply (In_nth _ _ 0) in B.
    destruct A as (i & Hi & <-), B as (j & Hj & <-). rewrite xs_len in Hi. rewrite ys_len in Hj. rewrite xs_nth, ys_nth by assumption.
    destruct cw as [W E], ch as [W' E']. unfold head. rewrite E', E. rewrite (minus_INR (ny P - 1) rows) by lia.
    pose proof (pt_in (x_m P) _ c W Hc i _ Hi). pose proof (pt_in (y_m P) _ c W' Hc j _ Hj). lra.
  Qed.
  (** Sums of products over the lattice. *)
  Lemma layer_sum (f g : R -> R) : Rsum (map (fun xy => f (fst xy) * g (snd xy)) (layer P c rows head)) =
    fsum ((nx P - 1) * c) (fun i => f (pt (x_m P) (cell_w P) c i)) * fsum (rows * c) (fun j => g (pt (y_m P) (cell_h P) c j)).
  Proof.
    rewrite layer_eq, spread_sum, xs_len, ys_len. cbn [fst snd].
    rewrite (fsum_ext _ _ (fun j => fsum ((nx P - 1) * c) (fun i => f (pt (x_m P) (cell_w P) c i)) * g (pt (y_m P) (cell_h P) c j))).
    - rewrite fsum_scal. reflexivity.
    - intros j Hj. rewrite <- fsum_scal_r. apply fsum_ext. intros i Hi. rewrite xs_nth, ys_nth by assumption. reflexivity.
  Qed.
End Layer.
