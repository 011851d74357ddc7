(** * Cyclic boundaries, walls, friction, volumes, surface loads: C09-C13, C15, C49, C50. *)
From Coq Require Import ZArith QArith Reals List Bool Arith Lra Lia.
From Verif Require Import State NumR NumQ Spec LibList LibR ModelGrid ModelConstit ModelParticle ModelMPList
  ProofsSlice ProofsGrid ProofsMap ProofsP2G ProofsWalls Concrete.
Import ListNotations.
Local Open Scope R_scope.

(** ** C09: make_cyclic *)
Lemma p_C09_make_cyclic : forall (A : Type) (add : A -> A -> A) (d : A) (nx ny : nat) (l : list A),
  (2 <= nx)%nat -> length l = (nx * ny)%nat ->
  exists l', cyc add nx l = Ok l' /\ length l' = (nx * ny)%nat /\
    (forall r, (r < ny)%nat ->
       nth (r * nx) l' d = add (nth (r * nx) l d) (nth (r * nx + (nx - 1)) l d) /\
       nth (r * nx + (nx - 1)) l' d = add (nth (r * nx + (nx - 1)) l d) (nth (r * nx) l d)) /\
    (forall k, (k < nx * ny)%nat -> (k mod nx <> 0)%nat -> (k mod nx <> nx - 1)%nat ->
       nth k l' d = nth k l d).
Proof.
  intros A add d n m l Hn Hl.
  destruct m as [|m'].
  { assert (l = []) by (destruct l; auto; simpl in Hl; lia). subst l.
    exists []. split; [reflexivity|]. split; [simpl; lia|]. split; intros; lia. }
  set (m := Datatypes.S m') in *. assert (Hm : (0 < m)%nat) by (unfold m; lia).
  unfold cyc.
  destruct (left_zip n m add l (get_slice (Some (Z.of_nat n - 1)%Z) None (Z.of_nat n) l) d)
    as (l1 & E1 & L1 & N1); auto; [lia|apply right_slice_len; auto; lia|].
  rewrite E1. cbn [bind].
  destruct (right_zip n m add l1 (get_slice None None (Z.of_nat n) l) d)
    as (l2 & E2 & L2 & N2); auto; [lia|apply left_slice_len; auto; lia|].
  rewrite E2. exists l2. split; [reflexivity|]. split; [auto|]. split.
  - intros r Hr.
    destruct (node_at n ltac:(lia) r 0) as [M0 D0]; [lia|]. rewrite Nat.add_0_r in M0, D0.
    destruct (node_at n ltac:(lia) r (n - 1)) as [M1 D1]; [lia|].
    pose proof (node_lt n m ltac:(lia) Hm r 0 ltac:(lia) Hr). pose proof (node_lt n m ltac:(lia) Hm r (n - 1) ltac:(lia) Hr).
    split.
    + rewrite N2 by lia. rewrite M0. destruct (Nat.eqb_spec 0 (n - 1)); [lia|].
      rewrite N1 by lia. rewrite M0, D0. simpl. f_equal. apply right_slice_nth with (m := m); auto; lia.
    + rewrite N2 by lia. rewrite M1, Nat.eqb_refl, D1.
      rewrite N1 by lia. rewrite M1. destruct (Nat.eqb_spec (n - 1) 0); [lia|].
      f_equal. apply left_slice_nth with (m := m); auto; lia.
  - intros k Hk K0 K1. rewrite N2 by auto. destruct (Nat.eqb_spec (k mod n) (n - 1)); [lia|].
    rewrite N1 by auto. destruct (Nat.eqb_spec (k mod n) 0); [lia|]. auto.
Qed.
(** The two columns coincide whenever addition is commutative, and for numbers
    the nodal sum is the old one plus both columns once more. *)
Lemma p_C09_columns_equal : forall (A : Type) (add : A -> A -> A) (d : A) (nx ny : nat) (l l' : list A),
  (forall a b, add a b = add b a) -> (2 <= nx)%nat -> length l = (nx * ny)%nat -> cyc add nx l = Ok l' ->
  forall r, (r < ny)%nat -> nth (r * nx) l' d = nth (r * nx + (nx - 1)) l' d.
Proof.
  intros A add d n m l l' C Hn Hl E r Hr.
  destruct (p_C09_make_cyclic A add d n m l Hn Hl) as (l2 & E2 & _ & N & _).
  rewrite E in E2. injection E2 as <-. destruct (N r Hr) as [-> ->]. apply C.
Qed.
Example x_C09_make_cyclic :
  cyc Nat.add 3 [1; 2; 3; 4; 5; 6]%nat = Ok [4; 2; 4; 10; 5; 10]%nat /\
  (2 <= 3)%nat /\ length [1; 2; 3; 4; 5; 6]%nat = (3 * 2)%nat.
Proof. vm_compute. repeat split; auto. Qed.

(** ** C10: wall masks *)
Lemma mark_nth a b s c m k : (k < length m)%nat ->
  nth k (mark a b s c m) false = (nth k m false || (c && in_slice (length m) a b s k))%bool.
Proof.
  intros Hk. unfold mark. destruct c; simpl.
  - rewrite map_slice_nth by auto. destruct (in_slice _ _ _ _ _); destruct (nth k m false); auto.
  - rewrite orb_false_r. auto.
Qed.
Lemma linspace_len_gen {T} `{Num T} (a b : T) n : length (linspace a b n) = n.
Proof. unfold linspace. rewrite map_length, seq_length. auto. Qed.
Lemma grid_init_parts {T} `{Num T} (P : gridp T) B G : grid_init P B = Ok G ->
  (2 <= nx P)%nat /\ (2 <= ny P)%nat /\ bv G = boundary_v P B /\ bh G = boundary_h P B /\
  btot G = zipw orb (boundary_v P B) (boundary_h P B) /\ bconv G = boundary_conv P B.
Proof.
  unfold grid_init. intros E. pbinds E. injection E as <-. cbn.
  apply nth_res_ok with (d := n0) in E0. apply nth_res_ok with (d := n0) in E2.
  rewrite linspace_len_gen in E0, E2. destruct E0, E2.
  do 2 (split; [lia|]). repeat split; auto.
Qed.
(** No geometry besides the four sides and the no-slip floor. *)
Definition plain {T} (B : bounds T) : Prop :=
  wall B = false /\ two_walls B = false /\ silo_left B = false /\ silo_bottom B = false /\ box B = false.

Ltac marks := rewrite ?mark_nth by (rewrite ?mark_len, repeat_length; unfold nodes; auto);
  rewrite ?mark_len, ?repeat_length, ?nth_repeat_same.
Lemma beq_iff (b : bool) (Q : Prop) (n m : nat) : (Nat.eqb n m && b)%bool = true <-> n = m /\ b = true.
Proof. rewrite andb_true_iff, Nat.eqb_eq. tauto. Qed.

Lemma p_C10_wall_masks : forall (T : Type) (N : Num T) (P : gridp T) (B : bounds T) (G : grid T),
  grid_init P B = Ok G -> plain B ->
  forall k, (k < nx P * ny P)%nat ->
  (nth k (bh G) false = true <->
     (row P k = 0%nat /\ has_bottom B = true) \/ (row P k = (ny P - 1)%nat /\ has_top B = true)) /\
  (nth k (bv G) false = true <->
     (col P k = 0%nat /\ has_left B = true) \/ (col P k = (nx P - 1)%nat /\ has_right B = true) \/
     (row P k = 0%nat /\ no_slip_bottom B = true)) /\
  (nth k (btot G) false = true <-> nth k (bv G) false = true \/ nth k (bh G) false = true).
Proof.
  intros T N P B G E (W1 & W2 & W3 & W4 & W5) k Hk.
  apply grid_init_parts in E. destruct E as (Hx & Hy & -> & -> & -> & _).
  split; [|split].
  - unfold boundary_h. rewrite W4, W5. marks. unfold nodes. simpl andb. rewrite !orb_false_r.
    rewrite in_slice_first, in_slice_from by nia. rewrite row_zero, row_last by lia.
    fold (row P k). simpl orb. rewrite !orb_true_iff, !andb_true_iff, !Nat.eqb_eq. tauto.
  - unfold boundary_v. rewrite W1, W2, W3, W5. marks. unfold nodes. simpl andb. rewrite !orb_false_r.
    rewrite in_slice_first, in_slice_left, in_slice_right by nia. rewrite row_zero by lia.
    fold (row P k) (col P k). simpl orb. rewrite !orb_true_iff, !andb_true_iff, !Nat.eqb_eq. tauto.
  - rewrite (zipw_nth _ _ _ _ false false false) by (rewrite ?boundary_v_len, ?boundary_h_len; auto).
    apply orb_true_iff.
Qed.
Lemma p_C10_nodes : forall (T : Type) (N : Num T) (P : gridp T) (B : bounds T) (G : grid T),
  grid_init P B = Ok G ->
  length (bv G) = (nx P * ny P)%nat /\ length (bh G) = (nx P * ny P)%nat /\
  length (btot G) = (nx P * ny P)%nat.
Proof.
  intros T N P B G E. apply grid_init_parts in E. destruct E as (_ & _ & -> & -> & -> & _).
  rewrite zipw_length, boundary_v_len, boundary_h_len. unfold nodes. lia.
Qed.
Example x_C10_wall_masks :
  plain (ex_box : bounds Q) /\
  match grid_init (ex_gridp : gridp Q) ex_box with
  | Ok G => bv G = [true;false;false;true; true;false;false;true; true;false;false;true] /\
            bh G = [true;true;true;true; false;false;false;false; true;true;true;true]
  | Err _ => False end.
Proof. vm_compute. repeat split; auto. Qed.

(** ** C11: other geometries *)
Definition only_wall {T} (B : bounds T) : Prop :=
  wall B = true /\ two_walls B = false /\ silo_left B = false /\ box B = false /\
  has_left B = false /\ has_right B = false /\ no_slip_bottom B = false.
(** A wall in the middle column from the floor to mid-height. *)
Lemma p_C11_wall : forall (T : Type) (N : Num T) (P : gridp T) (B : bounds T) (G : grid T),
  grid_init P B = Ok G -> only_wall B ->
  forall k, (k < nx P * ny P)%nat ->
  (nth k (bv G) false = true <-> col P k = ((nx P - 1) / 2)%nat /\ (2 * row P k + 1 < ny P)%nat).
Proof.
  intros T N P B G E (W1 & W2 & W3 & W4 & W5 & W6 & W7) k Hk.
  apply grid_init_parts in E. destruct E as (Hx & Hy & -> & _).
  unfold boundary_v. rewrite W1, W2, W3, W4, W5, W6, W7. marks. cbn [orb andb]. rewrite !orb_false_r.
  replace ((Z.of_nat (nx P) - 1) / 2)%Z with (Z.of_nat ((nx P - 1) / 2)).
  2: { change 2%Z with (Z.of_nat 2). rewrite Nat2Z.inj_div. f_equal. lia. }
  assert (Hh : ((nx P - 1) / 2 < nx P)%nat) by (apply Nat.div_lt_upper_bound; lia).
  rewrite in_slice_stride; [|lia| |unfold nodes; nia|unfold nodes; auto].
  2: { apply Z.div_pos; nia. }
  rewrite (Nat.mod_small ((nx P - 1) / 2)) by auto. fold (col P k).
  rewrite !andb_true_iff, Nat.leb_le, Z.ltb_lt, Nat.eqb_eq.
  pose proof (Nat.div_mod k (nx P) ltac:(lia)) as D. fold (row P k) (col P k) in D.
  set (h := ((nx P - 1) / 2)%nat) in *.
  assert (H2 : (nx P = 2 * h + 1 \/ nx P = 2 * h + 2)%nat).
  { unfold h. pose proof (Nat.div_mod (nx P - 1) 2 ltac:(lia)). pose proof (Nat.mod_upper_bound (nx P - 1) 2). lia. }
  assert (Q : (Z.of_nat k < (Z.of_nat (ny P) * Z.of_nat (nx P) - 1) / 2 <->
               2 * Z.of_nat k + 2 <= Z.of_nat (ny P) * Z.of_nat (nx P) - 1)%Z).
  { set (M := (Z.of_nat (ny P) * Z.of_nat (nx P) - 1)%Z).
    pose proof (Z.div_mod M 2 ltac:(lia)). pose proof (Z.mod_pos_bound M 2 ltac:(lia)). lia. }
  rewrite Q. clear Q. split.
  - intros [[A1 A2] A3]. split; auto. rewrite A3 in D.
    destruct (Nat.lt_ge_cases (2 * row P k + 1) (ny P)) as [|C]; auto. exfalso.
    pose proof (Nat.mul_le_mono_r _ _ (nx P) C). lia.
  - intros [A1 A2]. rewrite A1 in D.
    pose proof (Nat.mul_le_mono_r (2 * row P k + 2) (ny P) (nx P) ltac:(lia)). clear Hk. repeat split; auto; [nia|lia].
Qed.

Definition only_two_walls {T} (B : bounds T) : Prop :=
  wall B = false /\ two_walls B = true /\ silo_left B = false /\ box B = false /\
  has_left B = false /\ has_right B = false /\ no_slip_bottom B = false.
(** A low wall a quarter of the way across and a hanging wall three quarters
    across. *)
Lemma p_C11_two_walls : forall (T : Type) (N : Num T) (P : gridp T) (B : bounds T) (G : grid T),
  grid_init P B = Ok G -> only_two_walls B ->
  forall k, (k < nx P * ny P)%nat ->
  (nth k (bv G) false = true <->
    (col P k = ((nx P - 1) / 4)%nat /\ (2 * k + 3 <= nx P * ny P)%nat) \/
    (col P k = (3 * (nx P - 1) / 4)%nat /\ (ny P / 2 <= row P k)%nat)).
Proof.
  intros T N P B G E (W1 & W2 & W3 & W4 & W5 & W6 & W7) k Hk.
  apply grid_init_parts in E. destruct E as (Hx & Hy & -> & _).
  unfold boundary_v. rewrite W1, W2, W3, W4, W5, W6, W7. marks. cbn [orb andb]. rewrite !orb_false_r.
  replace ((Z.of_nat (nx P) - 1) / 4)%Z with (Z.of_nat ((nx P - 1) / 4)).
  2: { change 4%Z with (Z.of_nat 4). rewrite Nat2Z.inj_div. f_equal. lia. }
  replace (Z.of_nat (ny P) / 2 * Z.of_nat (nx P) + 3 * (Z.of_nat (nx P) - 1) / 4)%Z
    with (Z.of_nat (ny P / 2 * nx P + 3 * (nx P - 1) / 4)).
  2: { rewrite Nat2Z.inj_add, Nat2Z.inj_mul. f_equal.
       - rewrite Nat2Z.inj_div. auto.
       - change 4%Z with (Z.of_nat 4). rewrite Nat2Z.inj_div. f_equal. lia. }
  assert (Hh : ((nx P - 1) / 4 < nx P)%nat) by (apply Nat.div_lt_upper_bound; lia).
  assert (Hq : (3 * (nx P - 1) / 4 < nx P)%nat) by (apply Nat.div_lt_upper_bound; lia).
  assert (Hy2 : (ny P / 2 < ny P)%nat) by (apply Nat.div_lt_upper_bound; lia).
  rewrite in_slice_stride; [|lia| |unfold nodes; nia|unfold nodes; auto].
  2: { apply Z.div_pos; nia. }
  rewrite in_slice_stride_end; [|lia|unfold nodes; nia|unfold nodes; auto].
  destruct (node_at (nx P) ltac:(lia) (ny P / 2) (3 * (nx P - 1) / 4) Hq) as [-> _].
  rewrite (Nat.mod_small ((nx P - 1) / 4)) by auto. fold (col P k).
  rewrite orb_true_iff, !andb_true_iff, !Nat.leb_le, Z.ltb_lt, !Nat.eqb_eq.
  pose proof (Nat.div_mod k (nx P) ltac:(lia)) as D. fold (row P k) (col P k) in D.
  assert (Q : (Z.of_nat k < (Z.of_nat (ny P) * Z.of_nat (nx P) - 1) / 2 <->
               2 * Z.of_nat k + 2 <= Z.of_nat (ny P) * Z.of_nat (nx P) - 1)%Z).
  { set (M := (Z.of_nat (ny P) * Z.of_nat (nx P) - 1)%Z).
    pose proof (Z.div_mod M 2 ltac:(lia)). pose proof (Z.mod_pos_bound M 2 ltac:(lia)). lia. }
  rewrite Q. clear Q.
  set (h := ((nx P - 1) / 4)%nat) in *. set (q := (3 * (nx P - 1) / 4)%nat) in *. set (y2 := (ny P / 2)%nat) in *.
  split.
  - intros [[[A1 A2] A3]|[A1 A2]]; [left; split; auto; nia|right; split; auto; nia].
  - intros [[A1 A2]|[A1 A2]]; [left; repeat split; auto; nia|right; split; auto; nia].
Qed.

Definition only_silo_left {T} (B : bounds T) : Prop :=
  wall B = false /\ two_walls B = false /\ silo_left B = true /\ box B = false /\
  has_left B = false /\ has_right B = false /\ no_slip_bottom B = false.
(** Only nodes of the column next to the left edge are marked. *)
Lemma p_C11_silo_left_column : forall (T : Type) (N : Num T) (P : gridp T) (B : bounds T) (G : grid T),
  grid_init P B = Ok G -> only_silo_left B ->
  forall k, (k < nx P * ny P)%nat -> nth k (bv G) false = true -> col P k = 1%nat.
Proof.
  intros T N P B G E (W1 & W2 & W3 & W4 & W5 & W6 & W7) k Hk.
  apply grid_init_parts in E. destruct E as (Hx & Hy & -> & _).
  unfold boundary_v. rewrite W1, W2, W3, W4, W5, W6, W7. marks. cbn [orb andb]. rewrite !orb_false_r.
  rewrite orb_true_iff.
  assert (Q : forall a e len i n, (0 < n)%nat -> (a <= i)%nat -> (a mod n = 1)%nat ->
             in_slice len (Some (Z.of_nat a)) e (Z.of_nat n) i = true -> (a <= len)%nat -> (i mod n = 1)%nat).
  { intros a e len i n Hn Ha Hm Hs Hl. unfold in_slice in Hs. rewrite !andb_true_iff in Hs.
    destruct Hs as [_ Hs]. unfold clip_bound in Hs. destruct (Z.ltb_spec (Z.of_nat a) 0); [lia|].
    rewrite Z.min_l in Hs by lia. rewrite mod_eq_iff in Hs by auto. apply Nat.eqb_eq in Hs. lia. }
  intros [A|A].
  - unfold col. eapply (Q 1%nat); [| | |exact A|]; try lia.
    + unfold in_slice in A. rewrite !andb_true_iff in A. destruct A as [[A _] _].
      unfold clip_bound in A. cbn in A. unfold nodes in A. apply Z.leb_le in A. nia.
    + apply Nat.mod_small. lia.
    + unfold nodes. nia.
  - assert (Hy2 : (0 <= Z.of_nat (ny P) / 2)%Z) by (apply Z.div_pos; lia).
    replace ((Z.of_nat (ny P) / 2 + 3) * Z.of_nat (nx P) + 1)%Z with (Z.of_nat ((ny P / 2 + 3) * nx P + 1)) in A.
    2: { rewrite Nat2Z.inj_add, Nat2Z.inj_mul, Nat2Z.inj_add, Nat2Z.inj_div. reflexivity. }
    set (a := ((ny P / 2 + 3) * nx P + 1)%nat) in *.
    assert (a <= k)%nat.
    { unfold in_slice in A. rewrite !andb_true_iff in A. destruct A as [[A1 A2] _].
      unfold clip_bound in A1. destruct (Z.ltb_spec (Z.of_nat a) 0); [lia|].
      apply Z.leb_le in A1. unfold nodes in *. lia. }
    unfold col. eapply (Q a); [| | |exact A|]; try lia.
    + unfold a. apply node_at; lia.
    + unfold nodes. lia.
Qed.
(** With enough rows the opening is six rows around mid-height. *)
Lemma p_C11_silo_left_opening : forall (T : Type) (N : Num T) (P : gridp T) (B : bounds T) (G : grid T),
  grid_init P B = Ok G -> only_silo_left B -> (3 <= nx P)%nat -> (6 <= ny P)%nat ->
  forall k, (k < nx P * ny P)%nat ->
  (nth k (bv G) false = true <->
     col P k = 1%nat /\ ((row P k < ny P / 2 - 3)%nat \/ (ny P / 2 + 3 <= row P k)%nat)).
Proof.
  intros T N P B G E HB Hx Hy k Hk. pose proof (p_C11_silo_left_column T N P B G E HB k Hk) as HC.
  destruct HB as (W1 & W2 & W3 & W4 & W5 & W6 & W7).
  apply grid_init_parts in E. destruct E as (_ & _ & Ev & _).
  rewrite Ev in HC |- *. clear Ev. revert HC.
  unfold boundary_v. rewrite W1, W2, W3, W4, W5, W6, W7. marks. cbn [orb andb]. rewrite !orb_false_r.
  pose proof (Nat.div_mod (ny P) 2 ltac:(lia)) as D2. pose proof (Nat.mod_upper_bound (ny P) 2 ltac:(lia)) as U2.
  set (y2 := (ny P / 2)%nat) in *.
  replace (Z.of_nat (ny P) / 2)%Z with (Z.of_nat y2) by (unfold y2; rewrite Nat2Z.inj_div; auto).
  assert (3 <= y2)%nat by lia.
  pose proof (Nat.div_mod k (nx P) ltac:(lia)) as D. fold (row P k) (col P k) in D.
  pose proof (Nat.mod_upper_bound k (nx P) ltac:(lia)) as U. fold (col P k) in U.
  change (Some 1%Z) with (Some (Z.of_nat 1)).
  rewrite in_slice_stride; [|lia|nia|unfold nodes; nia|unfold nodes; auto].
  replace ((Z.of_nat y2 + 3) * Z.of_nat (nx P) + 1)%Z with (Z.of_nat ((y2 + 3) * nx P + 1)) by lia.
  set (a := ((y2 + 3) * nx P + 1)%nat) in *.
  rewrite (Nat.mod_small 1) by lia.
  assert (Q : in_slice (nodes P) (Some (Z.of_nat a)) (Some (-1)%Z) (Z.of_nat (nx P)) k = true <->
              col P k = 1%nat /\ (y2 + 3 <= row P k)%nat).
  { unfold in_slice, clip_bound. destruct (Z.ltb_spec (Z.of_nat a) 0); [lia|]. cbn [Z.ltb].
    change (-1 <? 0)%Z with true. cbv iota.
    rewrite !andb_true_iff, Z.leb_le, Z.ltb_lt.
    assert (AM : (a mod nx P = 1)%nat) by (unfold a; apply node_at; lia).
    unfold nodes. split.
    - intros [[A1 A2] A3]. assert (a <= k)%nat by nia. rewrite Z.min_l in A3 by lia.
      rewrite mod_eq_iff, AM in A3 by lia. apply Nat.eqb_eq in A3. fold (col P k) in A3.
      split; auto. unfold a in *. nia.
    - intros [A1 A2]. assert (a <= k)%nat by (unfold a; nia). rewrite Z.min_l by nia.
      rewrite mod_eq_iff, AM by lia. rewrite Nat.eqb_eq. fold (col P k).
      pose proof (row_lt (nx P) (ny P) ltac:(lia) ltac:(lia) k Hk) as R1. fold (row P k) in R1.
      repeat split; auto; nia. }
  intros _. rewrite orb_true_iff, Q. rewrite !andb_true_iff, Nat.leb_le, Z.ltb_lt, Nat.eqb_eq. fold (col P k).
  split.
  - intros [[[A1 A2] A3]|[A1 A2]]; [|auto]. split; auto. left. rewrite A3 in D. nia.
  - intros [A1 [A2|A2]]; [left|right; auto]. rewrite A1 in D. repeat split; auto; nia.
Qed.

Definition only_silo_bottom {T} (B : bounds T) : Prop :=
  silo_bottom B = true /\ box B = false /\ has_bottom B = false /\ has_top B = false.
(** The exact effect of silo_bottom: everything beyond the opening is marked,
    on every row of the grid. *)
Lemma p_C11_silo_bottom_exact_partial : forall (T : Type) (N : Num T) (P : gridp T) (B : bounds T) (G : grid T),
  grid_init P B = Ok G -> only_silo_bottom B -> (4 <= nx P)%nat ->
  forall k, (k < nx P * ny P)%nat ->
  (nth k (bh G) false = true <-> (k < nx P / 2 - 2)%nat \/ (nx P / 2 + 3 <= k)%nat).
Proof.
  intros T N P B G E (W1 & W2 & W3 & W4) Hx k Hk.
  apply grid_init_parts in E. destruct E as (_ & Hy & _ & -> & _).
  unfold boundary_h. rewrite W1, W2, W3, W4. marks. cbn [orb andb]. rewrite !orb_false_r.
  pose proof (Nat.div_mod (nx P) 2 ltac:(lia)) as D2. pose proof (Nat.mod_upper_bound (nx P) 2 ltac:(lia)) as U2.
  set (x2 := (nx P / 2)%nat) in *.
  replace (Z.of_nat (nx P) / 2)%Z with (Z.of_nat x2) by (unfold x2; rewrite Nat2Z.inj_div; auto).
  replace (Z.of_nat x2 - 2)%Z with (Z.of_nat (x2 - 2)) by lia.
  rewrite in_slice_first by (unfold nodes; nia).
  rewrite in_slice_from by (unfold nodes; lia).
  rewrite orb_true_iff, Nat.ltb_lt, Z.leb_le. lia.
Qed.
(** silo_bottom does not mark floor nodes only: on every grid with nx >= 6 the
    second row and everything above it is marked as well. *)
Lemma p_C11_silo_bottom_refuted : forall (T : Type) (N : Num T) (P : gridp T) (B : bounds T) (G : grid T),
  grid_init P B = Ok G -> only_silo_bottom B -> (6 <= nx P)%nat ->
  forall k, (k < nx P * ny P)%nat -> (1 <= row P k)%nat -> nth k (bh G) false = true.
Proof.
  intros T N P B G E HB Hx k Hk Hr.
  apply (p_C11_silo_bottom_exact_partial T N P B G E HB ltac:(lia) k Hk). right.
  pose proof (Nat.div_mod k (nx P) ltac:(lia)) as D. fold (row P k) in D.
  pose proof (Nat.div_mod (nx P) 2 ltac:(lia)). nia.
Qed.

Definition only_box {T} (B : bounds T) : Prop :=
  wall B = false /\ two_walls B = false /\ silo_left B = false /\ silo_bottom B = false /\ box B = true /\
  has_left B = false /\ has_right B = false /\ no_slip_bottom B = false /\
  has_top B = false /\ has_bottom B = false.
(** On a square grid box marks the outline of the rectangle of columns and rows
    4 to 8. *)
Lemma p_C11_box_square_partial : forall (T : Type) (N : Num T) (P : gridp T) (B : bounds T) (G : grid T),
  grid_init P B = Ok G -> only_box B -> nx P = ny P -> (9 <= nx P)%nat ->
  forall k, (k < nx P * ny P)%nat ->
  (nth k (bv G) false = true <-> (col P k = 4%nat \/ col P k = 8%nat) /\ (4 <= row P k <= 8)%nat) /\
  (nth k (bh G) false = true <-> (row P k = 4%nat \/ row P k = 8%nat) /\ (4 <= col P k <= 8)%nat).
Proof.
  intros T N P B G E (W1 & W2 & W3 & W4 & W5 & W6 & W7 & W8 & W9 & W10) En Hx k Hk.
  apply grid_init_parts in E. destruct E as (_ & _ & -> & -> & _).
  unfold boundary_v, boundary_h. rewrite W1, W2, W3, W4, W5, W6, W7, W8, W9, W10. marks. cbn [orb andb].
  pose proof (Nat.div_mod k (nx P) ltac:(lia)) as D. fold (row P k) (col P k) in D.
  pose proof (Nat.mod_upper_bound k (nx P) ltac:(lia)) as U. fold (col P k) in U.
  rewrite <- En in *. set (n := nx P) in *.
  assert (HN : nodes P = (n * n)%nat) by (unfold nodes; rewrite <- En; auto).
  split.
  - replace (4 * Z.of_nat n + 4)%Z with (Z.of_nat (4 * n + 4)) by lia.
    replace (4 * Z.of_nat n + 8)%Z with (Z.of_nat (4 * n + 8)) by lia.
    rewrite HN, !in_slice_stride by nia.
    destruct (node_at n ltac:(lia) 4 4) as [-> _]; [lia|].
    destruct (node_at n ltac:(lia) 4 8) as [-> _]; [lia|].
    rewrite orb_true_iff, !andb_true_iff, !Nat.leb_le, !Z.ltb_lt, !Nat.eqb_eq.
    change (k mod n)%nat with (col P k). split.
    + intros [[[A1 A2] A3]|[[A1 A2] A3]]; rewrite A3 in D; split; auto; nia.
    + intros [[A1|A1] A2]; rewrite A1 in D; [left|right]; repeat split; auto; nia.
  - rewrite HN, !in_slice_range by lia.
    rewrite orb_true_iff, !andb_true_iff, !Z.leb_le, !Z.ltb_lt. split.
    + intros [[A1 A2]|[A1 A2]].
      * assert (row P k = 4)%nat by nia. split; auto. nia.
      * assert (row P k = 8)%nat by nia. split; auto. nia.
    + intros [[A1|A1] A2]; rewrite A1 in D; [left|right]; lia.
Qed.
(** On other grids it does not: with 12 by 10 nodes the "left wall" is in
    column 8 and the right wall in column 0. *)
Definition box_bounds : bounds Q :=
  mkBounds false false false None false false false false false false true
           false false false false false false false false false.
Definition box_gridp : gridp Q :=
  mkGridp 0%Q 11%Q 0%Q 9%Q 12 10 None None 1%Q 1 [1%Q] None None.
Lemma p_C11_box_refuted : only_box box_bounds /\
  exists G, grid_init box_gridp box_bounds = Ok G /\
    nth (4 * 12 + 4)%nat (bv G) false = false /\            (* the corner of the box is open *)
    exists k, (k < 120)%nat /\ nth k (bv G) false = true /\ col box_gridp k = 0%nat.
Proof.
  split; [repeat split; auto|].
  destruct (grid_init box_gridp box_bounds) as [G|e] eqn:E; [|vm_compute in E; discriminate].
  exists G. split; auto. vm_compute in E. injection E as <-. cbn [bv].
  split; [vm_compute; auto|]. exists 48%nat. vm_compute. repeat split; auto; lia.
Qed.
(** For few rows the opening of silo_left vanishes or wraps round: with 4 rows
    the whole of column 1 below the last row but one is marked. *)
Definition silo_bounds : bounds Q :=
  mkBounds false false false None false false false false false false false
           false false false false false false false true false.
Lemma p_C11_silo_left_refuted : only_silo_left silo_bounds /\
  exists (P : gridp Q) G, (3 <= nx P)%nat /\ (4 <= ny P)%nat /\ grid_init P silo_bounds = Ok G /\
    (* mid-height, which should be open: *)
    nth (nx P * (ny P / 2) + 1)%nat (bv G) false = true.
Proof.
  split; [repeat split; auto|].
  exists (mkGridp 0%Q 4%Q 0%Q 3%Q 5 4 None None 1%Q 1 [1%Q] None None).
  eexists. split; [simpl; lia|]. split; [simpl; lia|]. split; [vm_compute; reflexivity|].
  vm_compute. reflexivity.
Qed.
Example x_C11_wall :
  let B : bounds Q := mkBounds true false false None false false false false false false false
           false false false false false false false false false in
  only_wall B /\
  match grid_init (ex_gridp : gridp Q) B with
  | Ok G => bv G = [false;true;false;false; false;false;false;false; false;false;false;false]
  | Err _ => False end.
Proof. vm_compute. repeat split; auto. Qed.
Example x_C11_box_square_partial :
  let P : gridp Q := mkGridp 0%Q 9%Q 0%Q 9%Q 10 10 None None 1%Q 1 [1%Q] None None in
  match grid_init P box_bounds with
  | Ok G => length (filter (fun b => b) (bv G)) = 10%nat /\ length (filter (fun b => b) (bh G)) = 10%nat
  | Err _ => False end.
Proof. vm_compute. repeat split; auto. Qed.
Example x_C11_silo_bottom_refuted :
  let B : bounds Q := mkBounds false false false None false false false false false false false
           false false false false false false false false true in
  let P : gridp Q := mkGridp 0%Q 9%Q 0%Q 9%Q 10 10 None None 1%Q 1 [1%Q] None None in
  only_silo_bottom B /\ (6 <= nx P)%nat /\
  match grid_init P B with Ok G => nth 55 (bh G) false = true | Err _ => False end.
Proof. vm_compute. repeat split; auto; lia. Qed.

(** ** C12: walls *)
Lemma open_removed a rough v h k :
  open_a a rough v h k = if removed a rough (nth k v false) (nth k h false) then 0 else 1.
Proof. destruct a; cbn; unfold open_x, open_y; auto. Qed.

(** The rate of change of momentum vanishes on walls, normal to them, and with
    roughness also along them; elsewhere it is the net force. *)
Lemma p_C12_wall_rate : forall P G G', sized (pG P) G -> no_rub (pB P) -> update_momentum P G = Ok G' ->
  forall a k, comp a (nth k (gqd G') v0) =
    if removed a (roughness (pB P)) (nth k (bv G) false) (nth k (bh G) false) then 0 else net_force P G a k.
Proof.
  intros P G G' HS NR HU a k. rewrite (no_rub_rate P G G' HS HU NR a k), open_removed.
  destruct (removed _ _ _ _); lra.
Qed.
Lemma p_C12_wall_momentum : forall P G G', sized (pG P) G -> no_rub (pB P) -> update_momentum P G = Ok G' ->
  forall a k, (k < nx (pG P) * ny (pG P))%nat ->
  removed a (roughness (pB P)) (nth k (bv G) false) (nth k (bh G) false) = true ->
  (a = AX -> conveyor (pB P) = true -> nth k (bconv G) false = false) ->
  comp a (nth k (gq G') v0) = comp a (nth k (gq G) v0) /\
  bv G' = bv G /\ bh G' = bh G.
Proof.
  intros P G G' HS NR HU a k Hk HR HC. split; [|exact (no_rub_masks P G G' HU NR)].
  pose proof (p_C12_wall_rate P G G' HS NR HU a k) as Q. rewrite HR in Q.
  destruct (um_q P G G' HS HU k Hk) as [QX QO].
  destruct a.
  - cbn [comp] in *. rewrite QX. destruct (conveyor (pB P)) eqn:E; cbn [andb].
    + rewrite HC by auto. rewrite Q. lra.
    + rewrite Q. lra.
  - rewrite QO, Q by discriminate. lra.
  - rewrite QO, Q by discriminate. lra.
Qed.
(** Also with a friction coefficient no momentum is created normal to a wall. *)
Lemma p_C12_wall_momentum_friction : forall P G G' mu, sized (pG P) G -> rubs (pB P) mu -> 0 <= mu ->
  update_momentum P G = Ok G' ->
  forall k, (k < nx (pG P) * ny (pG P))%nat -> k <> 1%nat -> conveyor (pB P) = false ->
  (nth k (bv G) false = true -> vx (nth k (gq G') v0) = vx (nth k (gq G) v0)) /\
  (nth k (bh G) false = true -> vy (nth k (gq G') v0) = vy (nth k (gq G) v0)).
Proof.
  intros P G G' mu HS RU Hmu HU k Hk H1 HC.
  assert (Hx : (0 < nx (pG P))%nat /\ (0 < ny (pG P))%nat) by nia.
  destruct (rub_masks P G G' HS HU mu RU (proj1 Hx) (proj2 Hx) k Hk) as [MV MH].
  destruct (rub_rate P G G' HS HU mu RU Hmu k Hk H1) as (RX & RY & _).
  destruct (um_q P G G' HS HU k Hk) as [QX QO]. rewrite HC in QX. cbn [andb] in QX.
  specialize (QO AY ltac:(discriminate)). cbn [comp] in QO.
  split; intros E.
  - rewrite E in MV. cbn [orb] in MV. rewrite MV in RX. rewrite QX, RX. lra.
  - rewrite E in MH. cbn [orb] in MH. rewrite MH in RY. rewrite QO, RY. lra.
Qed.

(** A grid with given forces, for examples. *)
Definition ex_grid {T} `{Num T} (B : bounds T) (fe : list (V3 T)) : res (grid T) :=
  G <- grid_init ex_gridp B ;; Ok (wipe (ex_params B) G <| gfe := fe |>).
Definition ex_fe : list (V3 Q) := repeat (mkV3 1%Q (-1)%Q 0%Q) 12.
Example x_C12_wall_rate :
  match ex_grid ex_box ex_fe with
  | Ok G => match update_momentum (ex_params ex_box) G with
            | Ok G' => map vx (gqd G') = [0; 1; 1; 0; 0; 1; 1; 0; 0; 1; 1; 0]%Q /\
                       map vy (gqd G') = [0; 0; 0; 0; -1; -1; -1; -1; 0; 0; 0; 0]%Q
            | Err _ => False end
  | Err _ => False end.
Proof. vm_compute. auto. Qed.
Example x_C12_sized : forall G0, grid_init ex_gridp ex_box = Ok G0 ->
  sized ex_gridp (wipe (ex_params ex_box) G0) /\ no_rub ex_box.
Proof.
  intros G0 E. apply grid_init_parts in E. destruct E as (_ & _ & Ev & Eh & _ & Ec).
  split; [|left; reflexivity]. unfold sized, wipe. cbn [pG ex_params p_seg bv bh bconv gm gq gfi gfe gext].
  rewrite Ev, Eh, Ec, boundary_v_len, boundary_h_len, boundary_conv_len, !repeat_length.
  unfold nodes. repeat split; auto.
Qed.

(** ** C13: wall friction *)
Lemma coulomb_props mu t n : 0 <= mu ->
  Rabs (coulomb mu t n) <= Rabs t /\ 0 <= t * coulomb mu t n /\
  Rabs t - Rabs (coulomb mu t n) <= mu * Rabs n.
Proof.
  intros Hm. pose proof (Rmult_le_pos mu (Rabs n) Hm (Rabs_pos n)).
  unfold coulomb. set (m := mu * Rabs n) in *. clearbody m.
  destruct (Rle_dec (Rabs t) m).
  - rewrite Rabs_R0. pose proof (Rabs_pos t). repeat split; nra.
  - destruct (Rlt_dec 0 t).
    + rewrite (Rabs_right t) in * by lra. rewrite Rabs_right by lra. repeat split; nra.
    + assert (t <= 0) by lra. rewrite (Rabs_left1 t) in * by lra. rewrite Rabs_left1 by lra. repeat split; nra.
Qed.
(** Away from node 1 the force rate along a wall is reduced towards zero by at
    most mu times the force rate normal to it, and never reversed. *)
Lemma p_C13_friction_opposes_partial : forall P G G' mu, sized (pG P) G -> rubs (pB P) mu -> 0 <= mu ->
  update_momentum P G = Ok G' ->
  forall k, (k < nx (pG P) * ny (pG P))%nat -> k <> 1%nat ->
  (nth k (bv G') false = false -> nth k (bh G') false = true ->
     let t := net_force P G AX k in let t' := vx (nth k (gqd G') v0) in
     Rabs t' <= Rabs t /\ 0 <= t * t' /\ Rabs t - Rabs t' <= mu * Rabs (net_force P G AY k)) /\
  (nth k (bh G') false = false -> nth k (bv G') false = true ->
     let t := net_force P G AY k in let t' := vy (nth k (gqd G') v0) in
     Rabs t' <= Rabs t /\ 0 <= t * t' /\ Rabs t - Rabs t' <= mu * Rabs (net_force P G AX k)) /\
  (nth k (bv G') false = false -> nth k (bh G') false = false ->
     forall a, comp a (nth k (gqd G') v0) = net_force P G a k).
Proof.
  intros P G G' mu HS RU Hmu HU k Hk H1.
  destruct (rub_rate P G G' HS HU mu RU Hmu k Hk H1) as (RX & RY & RZ).
  split; [|split].
  - intros E1 E2. rewrite E1, E2 in RX. cbv zeta. rewrite RX. apply coulomb_props; auto.
  - intros E1 E2. rewrite E1, E2 in RY. cbv zeta. rewrite RY. apply coulomb_props; auto.
  - intros E1 E2 a. rewrite E1, E2 in RX, RY. destruct a; auto.
Qed.
(** The exact force rate: Coulomb friction on every marked wall, whatever the
    direction of the normal force. *)
Lemma p_C13_friction_exact : forall P G G' mu, sized (pG P) G -> rubs (pB P) mu -> 0 <= mu ->
  update_momentum P G = Ok G' ->
  forall k, (k < nx (pG P) * ny (pG P))%nat -> k <> 1%nat ->
  vx (nth k (gqd G') v0) = (if nth k (bv G') false then 0 else
     if nth k (bh G') false then coulomb mu (net_force P G AX k) (net_force P G AY k) else net_force P G AX k) /\
  vy (nth k (gqd G') v0) = (if nth k (bh G') false then 0 else
     if nth k (bv G') false then coulomb mu (net_force P G AY k) (net_force P G AX k) else net_force P G AY k).
Proof.
  intros P G G' mu HS RU Hmu HU k Hk H1.
  destruct (rub_rate P G G' HS HU mu RU Hmu k Hk H1) as (RX & RY & RZ). auto.
Qed.
(** Friction marks all four sides of the domain as walls, whichever walls were
    declared. *)
Lemma p_C13_undeclared_walls_refuted : forall P G G' mu, sized (pG P) G -> rubs (pB P) mu ->
  update_momentum P G = Ok G' ->
  forall k, (k < nx (pG P) * ny (pG P))%nat ->
  (nth k (bv G') false = true <-> nth k (bv G) false = true \/ col (pG P) k = 0%nat \/ col (pG P) k = (nx (pG P) - 1)%nat) /\
  (nth k (bh G') false = true <-> nth k (bh G) false = true \/ row (pG P) k = 0%nat \/ row (pG P) k = (ny (pG P) - 1)%nat).
Proof.
  intros P G G' mu HS RU HU k Hk.
  assert (Hx : (0 < nx (pG P))%nat /\ (0 < ny (pG P))%nat) by nia.
  destruct (rub_masks P G G' HS HU mu RU (proj1 Hx) (proj2 Hx) k Hk) as [-> ->].
  rewrite !orb_true_iff, !Nat.eqb_eq. tauto.
Qed.
(** No wall is declared and the force at node 2 of the floor pulls upwards, yet
    friction halves the horizontal force and the vertical one is cancelled. *)
Definition rub_bounds : bounds Q :=
  mkBounds false false true (Some (1#2)%Q) false false false false false false false
           false false false false false false false false false.
Lemma p_C13_tension_refuted :
  exists G G', ex_grid rub_bounds (repeat (mkV3 1%Q 1%Q 0%Q) 12) = Ok G /\
    update_momentum (ex_params rub_bounds) G = Ok G' /\
    nth 2 (bh G) false = false /\
    nth 2 (gfe G) v0 = mkV3 1%Q 1%Q 0%Q /\ nth 2 (gqd G') v0 = mkV3 (1#2)%Q 0%Q 0%Q.
Proof.
  eexists. eexists. split; [vm_compute; reflexivity|]. split; [vm_compute; reflexivity|].
  vm_compute. auto.
Qed.
Example x_C13_friction_opposes_partial :
  rubs (ex_bounds <| roughness := true |> <| wall_mu := Some (1/2) |>) (1/2) /\ 0 <= 1/2 /\
  coulomb (1/2) 3 2 = 2 /\ coulomb (1/2) (-1/2) 2 = 0.
Proof.
  repeat split; try (cbn; lra).
  - unfold coulomb. rewrite (Rabs_right 3), (Rabs_right 2) by lra. destruct (Rle_dec _ _); [lra|]. destruct (Rlt_dec _ _); lra.
  - unfold coulomb. rewrite (Rabs_left (-1/2)), (Rabs_right 2) by lra. destruct (Rle_dec _ _); lra.
Qed.

(** ** C15: nodal volumes *)
Definition edge_weight (n i : nat) : R := if (Nat.eqb i 0 || Nat.eqb i (n - 1))%bool then 1/2 else 1.
Lemma p_C15_nodal_volume : forall P B G, proper P -> grid_init P B = Ok G ->
  forall k, (k < nx P * ny P)%nat ->
  nth k (gV G) 0 = cell_w P * cell_h P * thickness P *
    (edge_weight (ny P) (row P k) * (if cyclic_lr B then 1 else edge_weight (nx P) (col P k))).
Proof.
  intros P B G HP E k Hk. destruct (grid_init_ok P B HP) as (G0 & E0 & OK).
  assert (G0 = G) by congruence. subst G0. clear E0.
  pose proof HP as (Hx & Hy & _).
  assert (EV : gV G = volume P B (gdx G) (gdy G)).
  { clear OK. unfold grid_init in E. pbinds E. injection E as <-. reflexivity. }
  rewrite EV, (go_dx _ _ OK), (go_dy _ _ OK). unfold volume.
  rewrite nth_map_lt with (d := 0) by (rewrite weighting_len; auto).
  assert (EW : nth k (weighting P B) 0 =
     edge_weight (ny P) (row P k) * (if cyclic_lr B then 1 else edge_weight (nx P) (col P k))).
  { unfold weighting.
    set (w0 := repeat n1 (nodes P)).
    assert (L0 : length w0 = (nx P * ny P)%nat) by (unfold w0; rewrite repeat_length; auto).
    set (w1 := map_slice None (Some (Z.of_nat (nx P))) 1 _ w0).
    set (w2 := map_slice (Some ((Z.of_nat (ny P) - 1) * Z.of_nat (nx P))%Z) None 1 _ w1).
    assert (L1 : length w1 = (nx P * ny P)%nat) by (unfold w1; rewrite map_slice_length; auto).
    assert (L2 : length w2 = (nx P * ny P)%nat) by (unfold w2; rewrite map_slice_length; auto).
    assert (N2 : nth k w2 0 = edge_weight (ny P) (row P k)).
    { unfold w2. rewrite map_slice_nth by lia. rewrite L1, in_slice_from, row_last by nia. fold (row P k).
      unfold w1. rewrite map_slice_nth by lia. rewrite L0, in_slice_first, row_zero by nia. fold (row P k).
      unfold w0. rewrite nth_repeat_any by auto. unfold edge_weight. unR. unfold n2. unR.
      destruct (Nat.eqb_spec (row P k) (ny P - 1)), (Nat.eqb_spec (row P k) 0); cbn [orb]; try lia; lra. }
    destruct (cyclic_lr B); [rewrite N2; lra|].
    rewrite !map_slice_nth by (rewrite ?map_slice_length; lia). rewrite map_slice_length, L2.
    rewrite in_slice_left, in_slice_right by nia. fold (col P k). rewrite N2.
    set (e := edge_weight (ny P) (row P k)). unfold edge_weight. unR. unfold n2. unR.
    destruct (Nat.eqb_spec (col P k) (nx P - 1)), (Nat.eqb_spec (col P k) 0); cbn [orb]; try lia; lra. }
  rewrite EW. unR. lra.
Qed.
Lemma edge_weight_sum n : (2 <= n)%nat -> fsum n (edge_weight n) = INR n - 1.
Proof.
  intros Hn. destruct n as [|[|n]]; try lia.
  set (f := edge_weight (S (S n))).
  change (fsum (S (S n)) f) with (fsum (S n) f + f (S n)). rewrite fsum_S.
  rewrite (fsum_ext n (fun i => f (S i)) (fun _ => 1)).
  - rewrite fsum_const. unfold f, edge_weight. replace (S (S n) - 1)%nat with (S n) by lia.
    rewrite Nat.eqb_refl. cbn [Nat.eqb orb]. rewrite ?Nat.eqb_refl, !S_INR. lra.
  - intros i Hi. unfold f, edge_weight.
    destruct (Nat.eqb_spec (S i) (S (S n) - 1)); [lia|]. destruct (Nat.eqb_spec (S i) 0); [lia|]. reflexivity.
Qed.
Lemma vol_sum P B G : proper P -> grid_init P B = Ok G ->
  fsum (nx P * ny P) (fun k => nth k (gV G) 0) =
  cell_w P * cell_h P * thickness P * ((INR (ny P) - 1) *
    (if cyclic_lr B then INR (nx P) else INR (nx P) - 1)).
Proof.
  intros HP E. pose proof HP as (Hx & Hy & _).
  rewrite (fsum_ext _ _ _ (p_C15_nodal_volume P B G HP E)).
  rewrite fsum_scal. f_equal. rewrite Nat.mul_comm, fsum_rows.
  rewrite (fsum_ext (ny P) _ (fun j => edge_weight (ny P) j * (if cyclic_lr B then INR (nx P) else INR (nx P) - 1))).
  - rewrite fsum_scal_r, edge_weight_sum; auto.
  - intros j Hj. rewrite (fsum_ext (nx P) _ (fun i => edge_weight (ny P) j * (if cyclic_lr B then 1 else edge_weight (nx P) i))).
    + rewrite fsum_scal. destruct (cyclic_lr B).
      * rewrite fsum_const. lra.
      * change (fun i => edge_weight (nx P) i) with (edge_weight (nx P)). rewrite edge_weight_sum; auto.
    + intros i Hi. unfold row, col. destruct (node_at (nx P) ltac:(lia) j i Hi) as [-> ->]. auto.
Qed.
Lemma p_C15_volumes_tile : forall P B G, proper P -> grid_init P B = Ok G -> cyclic_lr B = false ->
  fsum (nx P * ny P) (fun k => nth k (gV G) 0) = (x_M P - x_m P) * (y_M P - y_m P) * thickness P.
Proof.
  intros P B G HP E C. rewrite (vol_sum P B G HP E), C, (cell_w_span P HP), (cell_h_span P HP). lra.
Qed.
(** With cyclic boundaries the coincident left and right columns both carry the
    full weight: the volumes add up to one column more than the domain. *)
Lemma p_C15_volumes_cyclic : forall P B G, proper P -> grid_init P B = Ok G -> cyclic_lr B = true ->
  fsum (nx P * ny P) (fun k => nth k (gV G) 0) =
    ((x_M P - x_m P) + cell_w P) * (y_M P - y_m P) * thickness P /\
  (forall r c, (r < ny P)%nat -> (c < nx P)%nat ->
     nth (r * nx P + c) (gV G) 0 = nth (r * nx P) (gV G) 0).
Proof.
  intros P B G HP E C. split.
  - rewrite (vol_sum P B G HP E), C, (cell_w_span P HP), (cell_h_span P HP). lra.
  - intros r c Hr Hc. pose proof HP as (Hx & Hy & _).
    rewrite !(p_C15_nodal_volume P B G HP E) by nia. rewrite C. unfold row.
    destruct (node_at (nx P) ltac:(lia) r c Hc) as [_ ->].
    destruct (node_at (nx P) ltac:(lia) r 0 ltac:(lia)) as [_ D]. rewrite Nat.add_0_r in D. rewrite D. auto.
Qed.
Lemma p_C15_volumes_positive : forall P B G, proper P -> grid_init P B = Ok G -> 0 < thickness P ->
  length (gV G) = (nx P * ny P)%nat /\ forall k, (k < nx P * ny P)%nat -> 0 < nth k (gV G) 0.
Proof.
  intros P B G HP E T. split.
  - destruct (grid_init_ok P B HP) as (G0 & E0 & OK). assert (G0 = G) by congruence. subst. apply OK.
  - intros k Hk. rewrite (p_C15_nodal_volume P B G HP E) by auto.
    pose proof (cell_w_pos P HP). pose proof (cell_h_pos P HP).
    apply Rmult_lt_0_compat; [apply Rmult_lt_0_compat; [apply Rmult_lt_0_compat|]; auto|].
    unfold edge_weight. destruct (_ || _)%bool; destruct (cyclic_lr B); try destruct (_ || _)%bool; lra.
Qed.
Example x_C15_volumes_tile : proper (ex_gridp : gridp R) /\ cyclic_lr (ex_box : bounds R) = false /\
  exists G, grid_init ex_gridp (ex_box : bounds R) = Ok G.
Proof.
  assert (H : proper (ex_gridp : gridp R)).
  { unfold proper; cbn; repeat split; try lia; unfold n2; unR; lra. }
  repeat split; auto; try apply H. destruct (grid_init_ok ex_gridp ex_box H) as (G & E & _). eauto.
Qed.

(** ** C49: surface loads *)
Lemma sety_slice_nth (l : list (V3 R)) a b s c k d : (k < length l)%nat ->
  nth k (map_slice a b s (sety (fun x => x + c)) l) d =
  mkV3 (vx (nth k l d)) (vy (nth k l d) + (if in_slice (length l) a b s k then c else 0)) (vz (nth k l d)).
Proof.
  intros. rewrite map_slice_nth by auto. unfold setx, sety. destruct (in_slice _ _ _ _ _); destruct (nth k l d); cbn; f_equal; lra.
Qed.
Lemma setx_slice_nth (l : list (V3 R)) a b s c k d : (k < length l)%nat ->
  nth k (map_slice a b s (setx (fun x => x + c)) l) d =
  mkV3 (vx (nth k l d) + (if in_slice (length l) a b s k then c else 0)) (vy (nth k l d)) (vz (nth k l d)).
Proof.
  intros. rewrite map_slice_nth by auto. unfold setx, sety. destruct (in_slice _ _ _ _ _); destruct (nth k l d); cbn; f_equal; lra.
Qed.
Lemma map_slice_ext {A} a b s (f g : A -> A) l : (forall x, f x = g x) -> map_slice a b s f l = map_slice a b s g l.
Proof.
  intros E. unfold map_slice, mapi. generalize 0%nat. set (n := length l). clearbody n.
  induction l; simpl; intros; auto. rewrite IHl, E. auto.
Qed.

(** The pull on a node towards larger coordinates. *)
Definition push (n i : nat) (q : R) : R :=
  (if Nat.eqb i 0 then q else 0) - (if Nat.eqb i (n - 1) then q else 0).

(** Inward loads on opposite sides, proportional to nodal mass, nothing else. *)
Lemma p_C49_surface_loads : forall P rho G G', sized (pG P) G -> proper (pG P) ->
  (forall k, nth k (gext G) v0 = v0) -> BCs P rho G = Ok G' ->
  forall k, (k < nx (pG P) * ny (pG P))%nat ->
  let m := nth k (gm G) 0 in
  vx (nth k (gfe G') v0) = vx (nth k (gfe G) v0) +
    (if horizontal_force (pB P) then 2 * push (nx (pG P)) (col (pG P) k) (ld_qh (p_loads P)) * m / rho / gdx G else 0) /\
  vy (nth k (gfe G') v0) = vy (nth k (gfe G) v0) +
    (if vertical_force (pB P) then 2 * push (ny (pG P)) (row (pG P) k) (ld_qv (p_loads P)) * m / rho / gdy G else 0) /\
  vz (nth k (gfe G') v0) = vz (nth k (gfe G) v0).
Proof.
  intros P rho G G' HS HP HE HB k Hk m. pose proof HP as (Hx & Hy & _).
  destruct HS as (_ & _ & _ & Lm & _ & _ & Lf & Le).
  unfold BCs in HB. destruct (p_aniso P && _)%bool; [discriminate|]. injection HB as HB.
  set (n := (nx (pG P) * ny (pG P))%nat) in *.
  set (G1 := if vertical_force (pB P) then _ else G) in HB.
  (* first the vertical load *)
  assert (S1 : gm G1 = gm G /\ gdx G1 = gdx G /\ length (gext G1) = n /\ length (gfe G1) = n /\
     (forall j, (j < n)%nat -> vx (nth j (gext G1) v0) = 0) /\
     vx (nth k (gfe G1) v0) = vx (nth k (gfe G) v0) /\
     vz (nth k (gfe G1) v0) = vz (nth k (gfe G) v0) /\
     vy (nth k (gfe G1) v0) = vy (nth k (gfe G) v0) +
       (if vertical_force (pB P) then 2 * push (ny (pG P)) (row (pG P) k) (ld_qv (p_loads P)) * m / rho / gdy G else 0)).
  { unfold G1. destruct (vertical_force (pB P)).
    - cbn [gm gdx gext gfe set]. cbn.
      set (qv := ld_qv (p_loads P)).
      set (e1 := map_slice None (Some (Z.of_nat (nx (pG P)))) 1 (sety (fun a => a + qv)) (gext G)).
      rewrite (map_slice_ext (Some ((Z.of_nat (ny (pG P)) - 1) * Z.of_nat (nx (pG P)))%Z) None 1
                 (sety (fun a => a - qv)) (sety (fun a => a + - qv))) by reflexivity.
      set (e2 := map_slice _ None 1 (sety (fun a => a + - qv)) e1).
      assert (L1 : length e1 = n) by (unfold e1; rewrite map_slice_length; auto).
      assert (L2 : length e2 = n) by (unfold e2; rewrite map_slice_length; auto).
      assert (E2 : forall j, (j < n)%nat -> nth j e2 v0 = mkV3 0 (push (ny (pG P)) (row (pG P) j) qv) 0).
      { intros j Hj. unfold e2. rewrite sety_slice_nth by lia. unfold e1. rewrite sety_slice_nth by lia.
        rewrite map_slice_length, Le, HE. cbn [vx vy vz v0]. unfold n.
        rewrite in_slice_first, in_slice_from, row_zero, row_last by (unfold n in *; nia).
        fold (row (pG P) j). unfold push. unR. f_equal.
        destruct (Nat.eqb (row (pG P) j) 0), (Nat.eqb (row (pG P) j) (ny (pG P) - 1)); lra. }
      do 2 (split; [reflexivity|]). split; [auto|].
      split; [rewrite zipw_length, combine_length; lia|].
      split; [intros j Hj; rewrite E2; auto|].
      rewrite (zipw_nth _ _ _ _ v0 (v0, 0) v0) by (rewrite ?combine_length; lia).
      rewrite combine_nth by lia. cbn [fst snd vx vy vz]. rewrite E2 by auto. unfold sety. cbn [vx vy vz fst snd].
      unR. unfold n2. unR. fold m. repeat split; auto.
    - repeat split; auto; try lra. intros j Hj. rewrite HE. reflexivity. }
  clearbody G1. destruct S1 as (Sm & Sx & S3 & S4 & S5 & S6 & S7 & S8).
  subst G'. destruct (horizontal_force (pB P)).
  - cbn [gfe set]. cbn. rewrite Sm, Sx.
    set (qh := ld_qh (p_loads P)).
    set (e1 := map_slice None None (Z.of_nat (nx (pG P))) (setx (fun a => a + qh)) (gext G1)).
    rewrite (map_slice_ext (Some (Z.of_nat (nx (pG P)) - 1)%Z) None (Z.of_nat (nx (pG P)))
               (setx (fun a => a - qh)) (setx (fun a => a + - qh))) by reflexivity.
    set (e2 := map_slice _ None _ (setx (fun a => a + - qh)) e1).
    assert (L1 : length e1 = n) by (unfold e1; rewrite map_slice_length; auto).
    assert (L2 : length e2 = n) by (unfold e2; rewrite map_slice_length; auto).
    rewrite (zipw_nth _ _ _ _ v0 (v0, 0) v0) by (rewrite ?combine_length; lia).
    rewrite combine_nth by lia. cbn [fst snd].
    assert (E2 : vx (nth k e2 v0) = push (nx (pG P)) (col (pG P) k) qh).
    { unfold e2. rewrite setx_slice_nth by lia. unfold e1. rewrite setx_slice_nth by lia.
      cbn [vx]. rewrite S5 by auto. rewrite map_slice_length, S3. unfold n.
      rewrite in_slice_left, in_slice_right by (unfold n in *; nia).
      fold (col (pG P) k). unfold push.
      destruct (Nat.eqb (col (pG P) k) 0), (Nat.eqb (col (pG P) k) (nx (pG P) - 1)); lra. }
    rewrite E2. unfold setx. cbn [vx vy vz]. unR. unfold n2. unR. fold m. rewrite S6, S7, S8. auto.
  - rewrite S6, S7, S8. repeat split; lra.
Qed.
Lemma sum_edges n f q : (2 <= n)%nat -> fsum n (fun i => push n i q * f i) = q * (f 0%nat - f (n - 1)%nat).
Proof.
  intros Hn. rewrite (fsum_ext n _ (fun i => (if Nat.eqb i 0 then q * f 0%nat else 0) - (if Nat.eqb i (n - 1) then q * f (n - 1)%nat else 0))).
  - rewrite fsum_minus, !fsum_delta by lia. lra.
  - intros i Hi. unfold push. destruct (Nat.eqb_spec i 0), (Nat.eqb_spec i (n - 1)); try lia; subst; lra.
Qed.
(** Mass of a row and of a column of nodes. *)
Definition row_mass (P : gridp R) (G : grid R) (j : nat) : R := fsum (nx P) (fun i => nth (j * nx P + i) (gm G) 0).
Definition col_mass (P : gridp R) (G : grid R) (i : nat) : R := fsum (ny P) (fun j => nth (j * nx P + i) (gm G) 0).
(** The resultant of the loads. *)
Lemma p_C49_load_resultant : forall P rho G G', sized (pG P) G -> proper (pG P) ->
  (forall k, nth k (gext G) v0 = v0) -> BCs P rho G = Ok G' -> rho <> 0 -> gdx G <> 0 -> gdy G <> 0 ->
  let n := (nx (pG P) * ny (pG P))%nat in
  fsum n (fun k => vx (nth k (gfe G') v0)) - fsum n (fun k => vx (nth k (gfe G) v0)) =
    (if horizontal_force (pB P) then 2 * ld_qh (p_loads P) / (rho * gdx G) *
       (col_mass (pG P) G 0 - col_mass (pG P) G (nx (pG P) - 1)) else 0) /\
  fsum n (fun k => vy (nth k (gfe G') v0)) - fsum n (fun k => vy (nth k (gfe G) v0)) =
    (if vertical_force (pB P) then 2 * ld_qv (p_loads P) / (rho * gdy G) *
       (row_mass (pG P) G 0 - row_mass (pG P) G (ny (pG P) - 1)) else 0).
Proof.
  intros P rho G G' HS HP HE HB Hr Hdx Hdy n. pose proof HP as (Hx & Hy & _).
  pose proof (p_C49_surface_loads P rho G G' HS HP HE HB) as Q. cbv zeta in Q. fold n in Q.
  split.
  - rewrite <- fsum_minus.
    rewrite (fsum_ext n _ (fun k => if horizontal_force (pB P) then 2 / (rho * gdx G) *
       (push (nx (pG P)) (col (pG P) k) (ld_qh (p_loads P)) * nth k (gm G) 0) else 0)).
    + destruct (horizontal_force (pB P)); [|apply fsum_zero; auto].
      rewrite fsum_scal. unfold n. rewrite Nat.mul_comm, fsum_rows, fsum_swap.
      rewrite (fsum_ext _ _ (fun i => push (nx (pG P)) i (ld_qh (p_loads P)) * col_mass (pG P) G i)).
      * rewrite sum_edges by auto. field. auto.
      * intros i Hi. unfold col_mass. rewrite <- fsum_scal. apply fsum_ext. intros j Hj.
        unfold col. destruct (node_at (nx (pG P)) ltac:(lia) j i Hi) as [-> _]. auto.
    + intros k Hk. destruct (Q k Hk) as (-> & _ & _). destruct (horizontal_force (pB P)); [field; auto|lra].
  - rewrite <- fsum_minus.
    rewrite (fsum_ext n _ (fun k => if vertical_force (pB P) then 2 / (rho * gdy G) *
       (push (ny (pG P)) (row (pG P) k) (ld_qv (p_loads P)) * nth k (gm G) 0) else 0)).
    + destruct (vertical_force (pB P)); [|apply fsum_zero; auto].
      rewrite fsum_scal. unfold n. rewrite Nat.mul_comm, fsum_rows.
      rewrite (fsum_ext _ _ (fun j => push (ny (pG P)) j (ld_qv (p_loads P)) * row_mass (pG P) G j)).
      * rewrite sum_edges by auto. field. auto.
      * intros j Hj. unfold row_mass. rewrite <- fsum_scal. apply fsum_ext. intros i Hi.
        unfold row. destruct (node_at (nx (pG P)) ltac:(lia) j i Hi) as [_ ->]. auto.
    + intros k Hk. destruct (Q k Hk) as (_ & -> & _). destruct (vertical_force (pB P)); [field; auto|lra].
Qed.
Example x_C49_surface_loads :
  let B : bounds Q := ex_bounds <| vertical_force := true |> in
  let P : params Q := ex_params B <| p_loads := mkLoads 0%Q 0%Q 3%Q 0%Q |> in
  match grid_init ex_gridp B with
  | Ok G => match BCs P 2%Q (wipe P G <| gm := repeat 1%Q 12 |>) with
            | Ok G' => map vy (gfe G') = [3;3;3;3;0;0;0;0;-3;-3;-3;-3]%Q
            | Err _ => False end
  | Err _ => False end.
Proof. vm_compute. auto. Qed.

(** ** C50: conveyor *)
Lemma p_C50_conveyor : forall P B G0 G G' w, grid_init (pG P) B = Ok G0 -> conveyor B = true ->
  pB P = B -> bconv G = bconv G0 -> sized (pG P) G -> p_v0 P = Some w -> update_momentum P G = Ok G' ->
  forall k, (k < nx (pG P) * ny (pG P))%nat ->
  ((2 <= k < nx (pG P) - 2)%nat -> vx (nth k (gq G') v0) = w * nth k (gm G) 0) /\
  (~ (2 <= k < nx (pG P) - 2)%nat -> vx (nth k (gq G') v0) = vx (nth k (gq G) v0) + p_dt P * vx (nth k (gqd G') v0)) /\
  vy (nth k (gq G') v0) = vy (nth k (gq G) v0) + p_dt P * vy (nth k (gqd G') v0) /\
  vz (nth k (gq G') v0) = vz (nth k (gq G) v0) + p_dt P * vz (nth k (gqd G') v0).
Proof.
  intros P B G0 G G' w EG HC EB Eb HS Hw HU k Hk.
  destruct (um_q P G G' HS HU k Hk) as [QX QO].
  apply grid_init_parts in EG. destruct EG as (Hx & Hy & _ & _ & _ & Ec).
  rewrite EB, HC, Hw in QX. cbn [andb] in QX.
  assert (E : nth k (bconv G) false = true <-> (2 <= k < nx (pG P) - 2)%nat).
  { rewrite Eb, Ec. unfold boundary_conv. rewrite HC. marks. cbn [orb andb].
    destruct (Z_lt_le_dec (Z.of_nat (nx (pG P)) - 2) 0).
    - assert (nx (pG P) = 2)%nat by lia. lia.
    - rewrite in_slice_range by (unfold nodes; lia). rewrite andb_true_iff, Z.leb_le, Z.ltb_lt. lia. }
  split; [|split].
  - intros Hc. apply E in Hc. rewrite Hc in QX. auto.
  - intros Hc. destruct (nth k (bconv G) false); [exfalso; tauto|]. auto.
  - split; [apply (QO AY)|apply (QO AZ)]; discriminate.
Qed.
Example x_C50_conveyor :
  let B : bounds Q := ex_bounds <| conveyor := true |> in
  let P : params Q := ex_params B <| p_v0 := Some 3%Q |> <| pG := mkGridp 0%Q 5%Q 0%Q 2%Q 6 3 None None 1%Q 1 [1%Q] None None |> in
  match grid_init (pG P) B with
  | Ok G => match update_momentum P (wipe P G <| gm := repeat 2%Q 18 |>) with
            | Ok G' => firstn 7 (map vx (gq G')) = [0; 0; 6; 6; 0; 0; 0]%Q
            | Err _ => False end
  | Err _ => False end.
Proof. vm_compute. auto. Qed.
