(** * The box inside the domain: C83. *)
From Coq Require Import ZArith QArith List Bool Arith Lia.
From Verif Require Import State NumQ PyBase LibList Spec ModelGrid ProofsGrid ProofsSlice Concrete ThmWalls.
Import ListNotations.
Local Open Scope nat_scope.

(** ** C83 *)
Lemma in_slice_block a b len k : (a <= b)%nat -> (k < len)%nat ->
  in_slice len (Some (Z.of_nat a)) (Some (Z.of_nat b)) 1 k = (Nat.leb a k && Nat.ltb k b)%bool.
Proof.
  intros Hab Hk. destruct (le_lt_dec a len) as [L|L].
  - change 1%Z with (Z.of_nat 1). rewrite in_slice_stride by lia. rewrite !Nat.mod_1_r, Nat.eqb_refl, andb_true_r. f_equal.
    destruct (Z.ltb_spec (Z.of_nat k) (Z.of_nat b)), (Nat.ltb_spec k b); auto; lia.
  - unfold in_slice, clip_bound. destruct (Z.ltb_spec (Z.of_nat a) 0); [lia|]. rewrite Z.min_r by lia.
    destruct (Z.leb_spec (Z.of_nat len) (Z.of_nat k)); [lia|]. destruct (Nat.leb_spec a k); [lia|]. reflexivity.
Qed.
Lemma in_slice_cols a b n len k : (0 < n)%nat -> (k < len)%nat ->
  in_slice len (Some (Z.of_nat a)) (Some (Z.of_nat b)) (Z.of_nat n) k = (Nat.leb a k && Nat.ltb k b && Nat.eqb (k mod n) (a mod n))%bool.
Proof.
  intros Hn Hk. destruct (le_lt_dec a len) as [L|L].
  - rewrite in_slice_stride by lia. do 2 f_equal.
    destruct (Z.ltb_spec (Z.of_nat k) (Z.of_nat b)), (Nat.ltb_spec k b); auto; lia.
  - unfold in_slice, clip_bound. destruct (Z.ltb_spec (Z.of_nat a) 0); [lia|]. rewrite Z.min_r by lia.
    destruct (Z.leb_spec (Z.of_nat len) (Z.of_nat k)); [lia|]. destruct (Nat.leb_spec a k); [lia|]. reflexivity.
Qed.
Lemma box_parts {T} {N : Num T} (P : gridp T) B G G0 : grid_init P B = Ok G -> grid_init P (B <| box := false |>) = Ok G0 -> box B = true ->
  forall k, (k < nx P * ny P)%nat ->
  nth k (bh G) false = (nth k (bh G0) false || (Nat.leb (4 * ny P + 4) k && Nat.ltb k (4 * ny P + 9)) || (Nat.leb (8 * ny P + 4) k && Nat.ltb k (8 * ny P + 9)))%bool /\
  nth k (bv G) false = (nth k (bv G0) false ||
    (Nat.leb (4 * ny P + 4) k && Nat.ltb k (8 * ny P + 8) && Nat.eqb (k mod nx P) ((4 * ny P + 4) mod nx P)) ||
    (Nat.leb (4 * ny P + 8) k && Nat.ltb k (8 * ny P + 16) && Nat.eqb (k mod nx P) ((4 * ny P + 8) mod nx P)))%bool.
Proof.
  intros E E0 HB k Hk. apply grid_init_parts in E, E0. destruct E as (Hx & Hy & -> & -> & _), E0 as (_ & _ & -> & -> & _).
  assert (F : box (B <| box := false |>) = false) by reflexivity. split.
  - unfold boundary_h. rewrite HB, F. marks. cbn [silo_bottom has_top has_bottom set]. cbn [andb]. rewrite !orb_false_r.
    replace (4 * Z.of_nat (ny P) + 4)%Z with (Z.of_nat (4 * ny P + 4)) by lia. replace (4 * Z.of_nat (ny P) + 8 + 1)%Z with (Z.of_nat (4 * ny P + 9)) by lia.
    replace (8 * Z.of_nat (ny P) + 4)%Z with (Z.of_nat (8 * ny P + 4)) by lia. replace (8 * Z.of_nat (ny P) + 8 + 1)%Z with (Z.of_nat (8 * ny P + 9)) by lia.
    rewrite !in_slice_block by (unfold nodes; lia). reflexivity.
  - unfold boundary_v. rewrite HB, F. marks. cbn [silo_left two_walls wall has_right has_left no_slip_bottom set]. cbn [andb]. rewrite !orb_false_r.
    replace (4 * Z.of_nat (ny P) + 4)%Z with (Z.of_nat (4 * ny P + 4)) by lia. replace (4 * Z.of_nat (ny P) + 8)%Z with (Z.of_nat (4 * ny P + 8)) by lia.
    replace (8 * (Z.of_nat (ny P) + 1))%Z with (Z.of_nat (8 * ny P + 8)) by lia. replace (8 * (Z.of_nat (ny P) + 2))%Z with (Z.of_nat (8 * ny P + 16)) by lia.
    rewrite !in_slice_cols by (unfold nodes; lia). reflexivity.
Qed.
(** On any grid the option [box] adds to the masks these runs of node numbers and nothing else, whatever the other walls:
    two runs of five nodes for the lower and upper side, two combs of step [nx] for the left and right side. *)
Lemma p_C83_exact : forall (T : Type) (N : Num T) (P : gridp T) (B : bounds T) (G G0 : grid T),
  grid_init P B = Ok G -> grid_init P (B <| box := false |>) = Ok G0 -> box B = true ->
  forall k, (k < nx P * ny P)%nat ->
  (nth k (bh G) false = true <-> nth k (bh G0) false = true \/ 4 * ny P + 4 <= k <= 4 * ny P + 8 \/ 8 * ny P + 4 <= k <= 8 * ny P + 8) /\
  (nth k (bv G) false = true <-> nth k (bv G0) false = true \/
    (4 * ny P + 4 <= k < 8 * ny P + 8 /\ exists i, k = 4 * ny P + 4 + i * nx P) \/
    (4 * ny P + 8 <= k < 8 * ny P + 16 /\ exists i, k = 4 * ny P + 8 + i * nx P)).
Proof.
  intros T N P B G G0 E E0 HB k Hk. destruct (box_parts P B G G0 E E0 HB k Hk) as [-> ->].
  rewrite !orb_true_iff, !andb_true_iff, !Nat.leb_le, !Nat.ltb_lt, !Nat.eqb_eq.
  assert (C : forall a, a <= k -> (k mod nx P = a mod nx P <-> exists i, k = a + i * nx P)).
  { intros a Ha. destruct (Nat.eq_dec (nx P) 0) as [Z|Z]; [nia|]. split.
    - intros M. exists (k / nx P - a / nx P). pose proof (Nat.div_mod k (nx P) Z). pose proof (Nat.div_mod a (nx P) Z).
      pose proof (Nat.div_le_mono a k (nx P) Z Ha). nia.
    - intros [i ->]. apply Nat.mod_add; auto. }
  split; split; intros H.
  - destruct H as [[H|H]|H]; auto; right; [left|right]; lia.
  - destruct H as [H|[H|H]]; auto; [left; right|right]; lia.
  - destruct H as [[H|[H1 H2]]|[H1 H2]]; auto; right; [left|right]; (split; [lia|]); apply C in H2; auto; lia.
  - destruct H as [H|[[H1 H2]|[H1 H2]]]; auto; [left; right|right]; apply C in H2; try lia; (split; [lia|auto]).
Qed.
(** On a grid with as many rows as columns, at least nine, the option [box] adds to the other walls exactly the four sides
    of the square of nodes from column 4 to column 8 and from row 4 to row 8: its left and right sides block horizontal
    motion, its lower and upper sides block vertical motion. *)
Lemma p_C83_square : forall (T : Type) (N : Num T) (P : gridp T) (B : bounds T) (G G0 : grid T),
  grid_init P B = Ok G -> grid_init P (B <| box := false |>) = Ok G0 -> box B = true -> nx P = ny P -> (9 <= nx P)%nat ->
  forall k, (k < nx P * ny P)%nat ->
  (nth k (bh G) false = true <-> nth k (bh G0) false = true \/ ((row P k = 4 \/ row P k = 8) /\ 4 <= col P k <= 8)) /\
  (nth k (bv G) false = true <-> nth k (bv G0) false = true \/ ((col P k = 4 \/ col P k = 8) /\ 4 <= row P k <= 8)).
Proof.
  intros T N P B G G0 E E0 HB HS H9 k Hk. destruct (box_parts P B G G0 E E0 HB k Hk) as [-> ->]. rewrite <- HS in *.
  set (n := nx P) in *. assert (D : k = n * row P k + col P k) by (apply Nat.div_mod; lia).
  assert (U : col P k < n) by (apply Nat.mod_upper_bound; lia).
  assert (M4 : (4 * n + 4) mod n = 4) by (rewrite Nat.add_comm, Nat.mod_add by lia; apply Nat.mod_small; lia).
  assert (M8 : (4 * n + 8) mod n = 8) by (rewrite Nat.add_comm, Nat.mod_add by lia; apply Nat.mod_small; lia).
  rewrite M4, M8. change (k mod n) with (col P k). rewrite !orb_true_iff, !andb_true_iff, !Nat.leb_le, !Nat.ltb_lt, !Nat.eqb_eq.
  generalize dependent (row P k). generalize dependent (col P k). intros c U r D. clear M4 M8 E E0. subst k.
  assert (forall q, n * r + c < q * n + 9 -> q * n + 4 <= n * r + c -> r = q /\ 4 <= c <= 8).
  { intros q A1 A2. assert (r < q + 1) by nia. assert (~ r < q) by (intros Hr; assert (n * r + n <= q * n) by nia; lia). assert (r = q) by lia. subst. nia. }
  split; (split; [intros [[A|A]|A]|intros [A|A]]); auto.
  - right. destruct (H 4) as [-> A2]; [lia|lia|]. auto.
  - right. destruct (H 8) as [-> A2]; [lia|lia|]. auto.
  - destruct A as [[A|A] B1]; subst r; [left; right|right]; nia.
  - right. destruct A as [[A1 A2] A3]. subst c. split; [auto|]. assert (r < 9) by nia. assert (3 < r) by nia. lia.
  - right. destruct A as [[A1 A2] A3]. subst c. split; [auto|]. assert (r < 9) by nia. assert (3 < r) by nia. lia.
  - destruct A as [[A|A] B1]; subst c; [left; right|right]; (split; [split|]); nia.
Qed.
(** A square grid of ten by ten nodes with its outer walls. *)
Example x_C83_square : exists (P : gridp Q) (B : bounds Q) G G0, grid_init P B = Ok G /\ grid_init P (B <| box := false |>) = Ok G0 /\ box B = true /\
  nx P = ny P /\ (9 <= nx P)%nat /\ nth 44 (bv G) false = true /\ nth 44 (bh G) false = true /\ nth 0 (bh G0) false = true.
Proof.
  exists (ex_gridp <| nx := 10 |> <| ny := 10 |>), (ex_box <| box := true |>). eexists. eexists.
  split; [vm_compute; reflexivity|]. split; [vm_compute; reflexivity|]. repeat split; try reflexivity. cbn. lia.
Qed.
(** The offsets use the number of rows where the number of columns is meant.  On a grid of 15 columns and 10 rows the
    corner of the box (column 4, row 4) is free, while the last node of row 2 and the first node of row 3, on opposite
    sides of the domain, are blocked. *)
Lemma p_C83_oblong_refuted : exists (P : gridp Q) (B : bounds Q) G, grid_init P B = Ok G /\ box B = true /\ nx P = 15 /\ ny P = 10 /\
  nth (4 * 15 + 4) (bv G) false = false /\ nth (4 * 15 + 4) (bh G) false = false /\
  nth (2 * 15 + 14) (bh G) false = true /\ nth (3 * 15) (bh G) false = true /\ nth (2 * 15 + 14) (bv G) false = true.
Proof.
  exists (ex_gridp <| nx := 15 |> <| ny := 10 |>), (ex_bounds <| box := true |>). eexists.
  split; [vm_compute; reflexivity|]. repeat split; reflexivity.
Qed.
