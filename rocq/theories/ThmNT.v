(** * The NT scheme: C65, C66. *)
From Coq Require Import ZArith List Bool Arith Lia Reals Lra.
From Verif Require Import State NumR LibR LibList Spec ModelGrid ModelIntegr ModelNT ProofsGrid Concrete ThmSeg.
Import ListNotations.
Local Open Scope R_scope.
Local Existing Instance Num_R.

(** The increment of the scheme in terms of padded values [U], slopes [D] and
    predicted fluxes [H] is a difference. *)
Definition nt_w (dt dx : R) (U D H : nat -> R) (i : nat) : R :=
  (U (i + 1)%nat - U (i + 2)%nat) / 4 + (D i + D (i + 1)%nat) / 16 - dt * (H i + H (i + 1)%nat) / dx / 2.
Definition nt_un (dt dx : R) (U D H : nat -> R) (j : nat) : R :=
  1 / 2 * (U (j + 1)%nat + U (j + 2)%nat) + 1 / 8 * (D j - D (j + 1)%nat) + dt * (H (j + 1)%nat - H j) / dx.
Lemma nt_diff dt dx U D H i :
  (nt_un dt dx U D H (i + 1) + nt_un dt dx U D H i) / 2 - U (i + 2)%nat = nt_w dt dx U D H i - nt_w dt dx U D H (i + 1).
Proof.
  unfold nt_un, nt_w. replace (i + 1 + 1)%nat with (i + 2)%nat by lia. replace (i + 1 + 2)%nat with (i + 3)%nat by lia.
  unfold Rdiv. set (z := / dx). field.
Qed.

Definition nt_F c ss n (phi : nat -> list R) g b k i : R :=
  nt_flux c ss (pad2 n phi i) (nth k ss 0) (nth k (pad2 n phi i) 0) (pad2 n g i) (pad2 n b i).
Definition nt_us dt dx c ss n phi g b k j : R :=
  nth k (pad2 n phi (j + 1)) 0 + dt * limiter (nt_F c ss n phi g b k (j + 2) - nt_F c ss n phi g b k (j + 1))
                                             (nt_F c ss n phi g b k (j + 1) - nt_F c ss n phi g b k j) / (2 * dx).
Definition nt_Fs dt dx c ss n phi g b k j : R :=
  nt_flux c ss (map (fun k => nt_us dt dx c ss n phi g b k j) (seq 0 (length ss))) (nth k ss 0)
          (nt_us dt dx c ss n phi g b k j) (pad1 n g j) (pad1 n b j).
Definition nt_D n (phi : nat -> list R) k j : R :=
  limiter (nth k (pad2 n phi (j + 2)) 0 - nth k (pad2 n phi (j + 1)) 0) (nth k (pad2 n phi (j + 1)) 0 - nth k (pad2 n phi j) 0).
Lemma nt_line_eq dt dx c ss n phi g b k i : (i < n)%nat ->
  nt_line dt dx c ss n phi g b k i =
  nt_w dt dx (fun i => nth k (pad2 n phi i) 0) (nt_D n phi k) (nt_Fs dt dx c ss n phi g b k) i -
  nt_w dt dx (fun i => nth k (pad2 n phi i) 0) (nt_D n phi k) (nt_Fs dt dx c ss n phi g b k) (i + 1).
Proof.
  intros Hi. rewrite <- nt_diff. unfold nt_line. cbv zeta.
  replace (nth k (phi i) n0) with (nth k (pad2 n phi (i + 2)) 0).
  2:{ unfold pad2. replace (Nat.min (i + 2 - 2) (n - 1)) with i by lia. reflexivity. }
  unfold nt_un, nt_Fs, nt_us, nt_F, nt_D, nhalf, lit, n2. cbn [nadd nmul nsub ndiv nofZ n0 Num_R]. reflexivity.
Qed.
Lemma sub_self (x : R) : x - x = 0.
Proof. ring. Qed.
Lemma nt_blocked c ss phi s f g : nt_flux (T := R) c ss phi s f g true = 0.
Proof. reflexivity. Qed.
(** Along a line whose end nodes are walls or empty the increments of each
    class sum to zero. *)
Lemma p_C65_line : forall (dt dx c : R) ss n phi g b k, (1 <= n)%nat -> b 0%nat = true -> b (n - 1)%nat = true ->
  fsum n (nt_line dt dx c ss n phi g b k) = 0.
Proof.
  intros dt dx c ss n phi g b k Hn B0 B1.
  set (W := nt_w dt dx (fun i => nth k (pad2 n phi i) 0) (nt_D n phi k) (nt_Fs dt dx c ss n phi g b k)).
  rewrite (fsum_ext _ _ (fun i => W i - W (i + 1)%nat)) by (intros i Hi; apply nt_line_eq; exact Hi).
  rewrite fsum_drop.
  assert (PC : forall i j, Nat.min (i - 2) (n - 1) = Nat.min (j - 2) (n - 1) -> nth k (pad2 n phi i) 0 = nth k (pad2 n phi j) 0).
  { intros i j Hij. unfold pad2. rewrite Hij. reflexivity. }
  assert (FB : forall j, b (Nat.min (j - 1) (n - 1)) = true -> nt_Fs dt dx c ss n phi g b k j = 0).
  { intros j Hj. unfold nt_Fs. unfold pad1 at 2. rewrite Hj. apply nt_blocked. }
  assert (W0 : W 0%nat = 0).
  { unfold W, nt_w. cbn [Nat.add]. rewrite !FB by (cbn; exact B0). rewrite (PC 1%nat 2%nat) by lia.
    unfold nt_D. cbn [Nat.add]. rewrite (PC 2%nat 1%nat), (PC 1%nat 0%nat) by lia. rewrite !sub_self, limiter_0l, limiter_0r.
    unfold Rdiv. ring. }
  assert (W1 : W n = 0).
  { unfold W, nt_w. rewrite !FB by (match goal with |- b ?x = true => replace x with (n - 1)%nat by lia end; exact B1).
    rewrite (PC (n + 1)%nat (n + 2)%nat) by lia.
    unfold nt_D. rewrite (PC (n + 2)%nat (n + 1)%nat) by lia. replace (n + 1 + 2)%nat with (n + 3)%nat by lia.
    replace (n + 1 + 1)%nat with (n + 2)%nat by lia.
    rewrite (PC (n + 3)%nat (n + 2)%nat), (PC (n + 2)%nat (n + 1)%nat) by lia. rewrite !sub_self, !limiter_0l.
    unfold Rdiv. ring. }
  rewrite W0, W1. ring.
Qed.
(** On the grid: along every row, and along every column, that ends in nodes
    which are walls or lighter than the threshold. *)
Definition closed_node (P : params R) (G : grid R) (m : nat) : Prop :=
  nth m (btot G) false = true \/ nth m (gm G) 0 < p_Mtol P.
Lemma closed_blocked P G m : closed_node P G m -> blocked P G m = true.
Proof.
  intros [Q|Q]; unfold blocked, at0; [rewrite Q; reflexivity|]. apply orb_true_iff. right. apply Rltb_true. exact Q.
Qed.
Lemma p_C65_rows : forall (P : params R) G A, NT0 P G = Ok A -> (1 <= nx (pG P))%nat ->
  forall j k, (j < ny (pG P))%nat -> (k < ns (pG P))%nat ->
  closed_node P G (j * nx (pG P)) -> closed_node P G (j * nx (pG P) + (nx (pG P) - 1)) ->
  fsum (nx (pG P)) (fun i => nth k (nth (j * nx (pG P) + i) A []) 0) = 0.
Proof.
  intros P G A E Hx j k Hj Hk C1 C2. unfold NT0 in E. pbinds E. injection E as <-.
  match goal with |- fsum ?n ?f = 0 => rewrite (fsum_ext n f (nt_line (p_dt P) a a1 a0 (nx (pG P))
    (fun i => at0 [] (g_phi G) (j * nx (pG P) + i)) (fun i => vx (at0 v0 (g_gradpk G) (j * nx (pG P) + i)))
    (fun i => blocked P G (j * nx (pG P) + i)) k)) end.
  - apply p_C65_line; [exact Hx|rewrite Nat.add_0_r|]; apply closed_blocked; assumption.
  - intros i Hi. rewrite nth_map_seq' by (unfold nodes; nia). rewrite nth_map_seq' by exact Hk. cbn [Nat.add].
    replace ((j * nx (pG P) + i) / nx (pG P))%nat with j.
    + replace ((j * nx (pG P) + i) mod nx (pG P))%nat with i; [reflexivity|].
      rewrite Nat.add_comm, Nat.mod_add by lia. symmetry. apply Nat.mod_small. exact Hi.
    + rewrite Nat.add_comm, Nat.div_add by lia. rewrite Nat.div_small by exact Hi. reflexivity.
Qed.
Lemma p_C65_columns : forall (P : params R) G A, NT1 P G = Ok A -> (1 <= ny (pG P))%nat ->
  forall i k, (i < nx (pG P))%nat -> (k < ns (pG P))%nat ->
  closed_node P G i -> closed_node P G ((ny (pG P) - 1) * nx (pG P) + i) ->
  fsum (ny (pG P)) (fun j => nth k (nth (j * nx (pG P) + i) A []) 0) = 0.
Proof.
  intros P G A E Hx i k Hi Hk C1 C2. unfold NT1 in E. pbinds E. injection E as <-.
  match goal with |- fsum ?n ?f = 0 => rewrite (fsum_ext n f (nt_line (p_dt P) a a1 a0 (ny (pG P))
    (fun j => at0 [] (g_phi G) (j * nx (pG P) + i)) (fun j => vy (at0 v0 (g_gradpk G) (j * nx (pG P) + i)))
    (fun j => blocked P G (j * nx (pG P) + i)) k)) end.
  - apply p_C65_line; [exact Hx|cbn [Nat.mul Nat.add]|]; apply closed_blocked; assumption.
  - intros j Hj. rewrite nth_map_seq' by (unfold nodes; nia). rewrite nth_map_seq' by exact Hk. cbn [Nat.add].
    replace ((j * nx (pG P) + i) / nx (pG P))%nat with j.
    + replace ((j * nx (pG P) + i) mod nx (pG P))%nat with i; [reflexivity|].
      rewrite Nat.add_comm, Nat.mod_add by lia. symmetry. apply Nat.mod_small. exact Hi.
    + rewrite Nat.add_comm, Nat.div_add by lia. rewrite Nat.div_small by exact Hi. reflexivity.
Qed.

(** ** C66: two size classes *)
Lemma limiter_opp a b : limiter (- a) (- b) = - limiter a b.
Proof. apply superbee_opp. Qed.
Lemma limiter_bound a b M : Rabs a <= M -> Rabs b <= M -> Rabs (limiter a b) <= M.
Proof.
  intros Ha Hb. destruct (p_C37_superbee a b) as (Z & Q & _). destruct (Rle_lt_dec (a * b) 0) as [X|X].
  - change (limiter a b) with (superbee a b). rewrite (Z X), Rabs_R0. pose proof (Rabs_pos a). lra.
  - destruct (Q X) as [[_ U] _]. apply Rle_trans with (1 := U). apply Rle_trans with (1 := Rmin_r _ _). apply Rmax_lub; assumption.
Qed.
Lemma pair_flux (c s1 s2 u1 u2 g : R) b : s1 <> 0 -> s2 <> 0 -> u1 + u2 = 1 -> u1 * (1 / s1) + u2 * (1 / s2) <> 0 ->
  nt_flux c [s1; s2] [u1; u2] s1 u1 g b + nt_flux c [s1; s2] [u1; u2] s2 u2 g b = 0.
Proof.
  intros H1 H2 HS HW. unfold nt_flux. destruct b; [cbn; lra|].
  replace (inv_size [s1; s2] [u1; u2]) with (u1 * (1 / s1) + u2 * (1 / s2)) by (unfold inv_size, lsum; cbn; ring).
  set (w := u1 * (1 / s1) + u2 * (1 / s2)) in *. cbn [nmul nsub ndiv n1 Num_R].
  assert (E : u1 / s1 + u2 / s2 = w) by (unfold w; field; auto).
  transitivity (c * g * (u1 + u2 - (u1 / s1 + u2 / s2) / w)); [field; auto|]. rewrite HS, E. field. exact HW.
Qed.
Lemma pair_flux_bound (c s1 s2 u g : R) b : 0 < s1 -> 0 < s2 -> 0 <= u <= 1 ->
  Rabs (nt_flux c [s1; s2] [u; 1 - u] s1 u g b) <= Rabs c * Rabs g.
Proof.
  intros H1 H2 [U0 U1]. unfold nt_flux. destruct b.
  { change (n0 (T := R)) with 0. rewrite Rabs_R0. apply Rmult_le_pos; apply Rabs_pos. }
  replace (inv_size [s1; s2] [u; 1 - u]) with (u * (1 / s1) + (1 - u) * (1 / s2)) by (unfold inv_size, lsum; cbn; ring).
  set (w := u * (1 / s1) + (1 - u) * (1 / s2)) in *. cbn [nmul nsub ndiv n1 Num_R].
  assert (P1 : 0 < 1 / s1) by (apply Rdiv_lt_0_compat; lra). assert (P2 : 0 < 1 / s2) by (apply Rdiv_lt_0_compat; lra).
  assert (A : 0 <= (1 - u) * (1 / s2)) by (apply Rmult_le_pos; lra).
  assert (W : 0 < w). { unfold w. destruct (Req_EM_T u 0) as [->|N]; [lra|]. assert (0 < u * (1 / s1)) by (apply Rmult_lt_0_compat; lra). lra. }
  replace (c * (1 - 1 / (w * s1)) * g * u) with (c * g * (u - u * (1 / s1) / w)) by (field; lra).
  rewrite !Rabs_mult. rewrite <- (Rmult_1_r (Rabs c * Rabs g)) at 2. apply Rmult_le_compat_l; [apply Rmult_le_pos; apply Rabs_pos|].
  assert (B : 0 <= u * (1 / s1) / w <= 1).
  { split; [apply Rmult_le_pos; [apply Rmult_le_pos; lra|left; apply Rinv_0_lt_compat, W]|].
    apply Rmult_le_reg_r with w; [exact W|]. replace (u * (1 / s1) / w * w) with (u * (1 / s1)) by (field; lra). unfold w. lra. }
  apply Rabs_le. lra.
Qed.
(** With two sizes, fractions that sum to one and a step that respects
    [dt |c g| / dx < smin / (smax - smin)], the increments of the two classes
    are opposite at every node: the fractions keep summing to one. *)
Lemma p_C66_two_sizes : forall (dt dx c s1 s2 gm : R) n (f g : nat -> R) b, 0 < s1 -> 0 < s2 -> 0 < dx -> 0 <= dt ->
  (forall i, (i < n)%nat -> 0 <= f i <= 1 /\ Rabs (g i) <= gm) ->
  dt * Rabs c * gm / dx * Rabs (1 / s1 - 1 / s2) < Rmin (1 / s1) (1 / s2) ->
  forall i, (i < n)%nat -> let phi := fun i => [f i; 1 - f i] in
  nt_line dt dx c [s1; s2] n phi g b 0 i + nt_line dt dx c [s1; s2] n phi g b 1 i = 0.
Proof.
  intros dt dx c s1 s2 gm n f g b H1 H2 Hdx Hdt HF HC i Hi phi.
  assert (Hn : (0 < n)%nat) by lia.
  rewrite !nt_line_eq by exact Hi.
  assert (PF : forall j, 0 <= pad2 n f j <= 1 /\ Rabs (pad2 n g j) <= gm) by (intros j; apply HF; lia).
  assert (PP : forall j, pad2 n phi j = [pad2 n f j; 1 - pad2 n f j]) by reflexivity.
  set (F := nt_F c [s1; s2] n phi g b). set (us := nt_us dt dx c [s1; s2] n phi g b).
  assert (P1 : 0 < 1 / s1) by (apply Rdiv_lt_0_compat; lra). assert (P2 : 0 < 1 / s2) by (apply Rdiv_lt_0_compat; lra).
  assert (F1 : forall j, F 1%nat j = - F 0%nat j).
  { intros j. destruct (PF j) as [[U0 U1] _]. set (u := pad2 n f j) in *.
    cut (F 0%nat j + F 1%nat j = 0); [lra|]. unfold F, nt_F. rewrite PP. cbn [nth]. apply pair_flux; try lra.
    fold u. assert (0 <= (1 - u) * (1 / s2)) by (apply Rmult_le_pos; lra).
    destruct (Req_EM_T u 0) as [E|N]; [rewrite E; lra|]. assert (0 < u * (1 / s1)) by (apply Rmult_lt_0_compat; lra). lra. }
  assert (FB : forall j, Rabs (F 0%nat j) <= Rabs c * gm).
  { intros j. destruct (PF j) as [U Gb]. unfold F, nt_F. rewrite PP. cbn [nth].
    apply Rle_trans with (1 := pair_flux_bound c s1 s2 (pad2 n f j) (pad2 n g j) (pad2 n b j) H1 H2 U).
    apply Rmult_le_compat_l; [apply Rabs_pos|exact Gb]. }
  set (lim := fun j => limiter (F 0%nat (j + 2)%nat - F 0%nat (j + 1)%nat) (F 0%nat (j + 1)%nat - F 0%nat j)).
  assert (LB : forall j, Rabs (lim j) <= 2 * (Rabs c * gm)).
  { intros j. unfold lim. clear - FB. pose proof (FB (j + 2)%nat) as Q2. pose proof (FB (j + 1)%nat) as Q1. pose proof (FB j) as Q0.
    clear FB. generalize dependent (F 0%nat (j + 2)%nat). generalize dependent (F 0%nat (j + 1)%nat). generalize dependent (F 0%nat j).
    intros x0 Q0 x1 Q1 x2 Q2. apply limiter_bound; (eapply Rle_trans; [apply Rabs_triang|rewrite Rabs_Ropp]); lra. }
  assert (U0 : forall j, us 0%nat j = pad2 n f (j + 1) + dt * lim j / (2 * dx)) by reflexivity.
  assert (U1 : forall j, us 1%nat j = 1 - us 0%nat j).
  { intros j. rewrite U0. unfold us, nt_us. fold F. rewrite !F1. unfold Rminus.
    replace (- F 0%nat (j + 2)%nat + - - F 0%nat (j + 1)%nat) with (- (F 0%nat (j + 2)%nat - F 0%nat (j + 1)%nat)) by ring.
    replace (- F 0%nat (j + 1)%nat + - - F 0%nat j) with (- (F 0%nat (j + 1)%nat - F 0%nat j)) by ring.
    rewrite limiter_opp. fold (lim j). rewrite PP. cbn [nth]. field. lra. }
  assert (WN : forall j, us 0%nat j * (1 / s1) + us 1%nat j * (1 / s2) <> 0).
  { intros j. rewrite U1, U0. destruct (PF (j + 1)%nat) as [[V0 V1] _]. set (u := pad2 n f (j + 1)) in *. set (d := dt * lim j / (2 * dx)).
    assert (DB : Rabs d <= dt * Rabs c * gm / dx).
    { unfold d, Rdiv. rewrite !Rabs_mult, (Rabs_pos_eq dt Hdt), (Rabs_pos_eq (/ (2 * dx))) by (left; apply Rinv_0_lt_compat; lra).
      rewrite Rinv_mult. replace (dt * Rabs c * gm * / dx) with (dt * (2 * (Rabs c * gm)) * (/ 2 * / dx)) by (field; lra).
      apply Rmult_le_compat_r; [apply Rmult_le_pos; left; apply Rinv_0_lt_compat; lra|]. apply Rmult_le_compat_l; [exact Hdt|apply LB]. }
    assert (X : u * (1 / s1) + (1 - u) * (1 / s2) >= Rmin (1 / s1) (1 / s2)).
    { pose proof (Rmin_l (1 / s1) (1 / s2)). pose proof (Rmin_r (1 / s1) (1 / s2)). set (m := Rmin _ _) in *. nra. }
    assert (Y : Rabs (d * (1 / s1 - 1 / s2)) < Rmin (1 / s1) (1 / s2)).
    { eapply Rle_lt_trans; [|exact HC]. rewrite Rabs_mult. apply Rmult_le_compat_r; [apply Rabs_pos|exact DB]. }
    apply Rabs_def2 in Y. replace ((u + d) * (1 / s1) + (1 - (u + d)) * (1 / s2)) with (u * (1 / s1) + (1 - u) * (1 / s2) + d * (1 / s1 - 1 / s2)) by ring.
    lra. }
  assert (FS : forall j, nt_Fs dt dx c [s1; s2] n phi g b 1 j = - nt_Fs dt dx c [s1; s2] n phi g b 0 j).
  { intros j. cut (nt_Fs dt dx c [s1; s2] n phi g b 0 j + nt_Fs dt dx c [s1; s2] n phi g b 1 j = 0); [lra|].
    unfold nt_Fs. fold us. cbn [length seq map nth]. apply pair_flux; try lra; [rewrite U1; lra|apply WN]. }
  assert (DD : forall j, nt_D n phi 1 j = - nt_D n phi 0 j).
  { intros j. unfold nt_D. rewrite !PP. cbn [nth]. rewrite <- limiter_opp. f_equal; ring. }
  unfold nt_w. rewrite !FS, !DD, !PP. cbn [nth]. unfold Rdiv. ring.
Qed.

(** ** C67: segregation needs a gradient of the kinetic pressure *)
(** The KT scheme changes nothing where there is none, or in a step of no
    duration. *)
Lemma p_C67_kt : forall cyclic (dt dx c : R) ss n phi g b k i, (i < n)%nat ->
  dt = 0 \/ (forall j, (j < n)%nat -> g j = 0) -> kt_line cyclic dt dx c ss n phi g b k i = 0.
Proof.
  intros cyclic dt dx c ss n phi g b k i Hi [->|HG]; unfold kt_line; cbv zeta.
  - rewrite kt_update_flux by lia. unfold Rdiv. ring.
  - set (C := fun i => nth k (pad2 n phi i) n0). set (V0 := fun i => seg_speed _ _ _ _ _ _).
    assert (Z : forall j, (j < n + 4)%nat -> V0 j = 0).
    { intros j Hj. unfold V0, seg_speed. destruct (pad2 n b j); [reflexivity|].
      replace (if cyclic then pad2_cyc n g j else pad2 n g j) with (0 : R); [cbn; ring|].
      symmetry. destruct cyclic; [|apply HG; lia]. unfold pad2_cyc.
      destruct (Nat.eqb_spec j 0); [apply HG; lia|]. destruct (Nat.eqb_spec j 1); [apply HG; lia|].
      destruct (Nat.eqb_spec j (n + 2)); [apply HG; lia|]. destruct (Nat.eqb_spec j (n + 3)); apply HG; lia. }
    assert (O : forall x y : R, - (x * 0 / y) = 0) by (intros; unfold Rdiv; ring).
    assert (ZB : forall j, (j < n + 4)%nat -> bc n C V0 j = 0).
    { intros j Hj. unfold bc. cbv zeta. rewrite !div0_R, (Z 2%nat), (Z (n + 1)%nat) by lia. cbn [nmul nopp Num_R]. rewrite !O.
      destruct (Nat.eqb j 0); [reflexivity|]. destruct (Nat.eqb j 1); [reflexivity|]. destruct (Nat.eqb j (n + 2)); [reflexivity|].
      destruct (Nat.eqb j (n + 3)); [reflexivity|apply Z, Hj]. }
    rewrite kt_update_flux by lia. unfold kt_flux. cbv zeta. rewrite !ZB by lia. rewrite Rabs_R0, Rmax_left by lra. unfold Rdiv. ring.
Qed.
Example x_C67_kt : (1 < 3)%nat /\ forall j, (j < 3)%nat -> (fun _ : nat => 0) j = 0.
Proof. split; [lia|reflexivity]. Qed.
Definition spike (i : nat) : list R := if Nat.eqb i 1 then [1; 0] else [0; 1].
(** The NT scheme smooths the fractions all the same. *)
Lemma p_C67_nt_refuted : forall dt dx c s1 s2 : R,
  (forall b, nt_line dt dx c [s1; s2] 3 spike (fun _ => 0) b 0 1 = - (1 / 2)) /\
  (forall g b, nt_line 0 dx c [s1; s2] 3 spike g b 0 1 = - (1 / 2)).
Proof.
  intros dt dx c s1 s2. set (phi := spike).
  assert (D1 : nt_D 3 phi 0 1 = 0) by (unfold nt_D, pad2; cbn; rewrite (sub_self 0); apply limiter_0r).
  assert (D3 : nt_D 3 phi 0 3 = 0) by (unfold nt_D, pad2; cbn; rewrite (sub_self 0); apply limiter_0l).
  split.
  - intros b. rewrite nt_line_eq by lia.
    assert (F : forall j, nt_Fs dt dx c [s1; s2] 3 phi (fun _ => 0) b 0 j = 0).
    { intros j. unfold nt_Fs, nt_flux, pad1. destruct (b _); [reflexivity|]. cbn [nmul Num_R]. ring. }
    unfold nt_w. cbn [Nat.add]. rewrite !F, D1, D3. unfold pad2. cbn. unfold Rdiv. set (z := / dx). field.
  - intros g b. rewrite nt_line_eq by lia. unfold nt_w. cbn [Nat.add]. rewrite D1, D3. unfold pad2. cbn. unfold Rdiv. set (z := / dx). field.
Qed.
