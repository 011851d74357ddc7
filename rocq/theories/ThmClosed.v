(** * Segregation at walls and empty nodes: C80. *)
From Coq Require Import ZArith List Bool Arith Lia Reals Lra.
From Verif Require Import State NumR Spec LibList LibR ModelGrid ModelIntegr ModelNT ProofsGrid Concrete ThmMapping ThmSeg ThmNT.
Import ListNotations.
Local Open Scope R_scope.

(** ** C80 *)
(** The face between the positions [i-1] and [i] of a line of [n]: the end of the line, or between two closed nodes. *)
Definition sealed (n : nat) (closed : nat -> Prop) (i : nat) : Prop :=
  (0 < i < n)%nat -> closed (i - 1)%nat /\ closed i.
Lemma face_zero (cyclic : bool) (dx c : R) ss n (phi : nat -> list R) g b k i : (1 <= n)%nat -> (i <= n)%nat -> sealed n (fun j => b j = true) i ->
  let C := fun j => nth k (pad2 n phi j) (n0 (T := R)) in
  let V0 := fun j => seg_speed (T := R) c ss (pad2 n phi j) (nth k ss 0) (if cyclic then pad2_cyc n g j else pad2 n g j) (pad2 n b j) in
  kt_flux dx C (bc n C V0) (i + 2) = 0.
Proof.
  intros Hn Hi HS C V0. set (V := bc n C V0).
  assert (PC : forall i j, Nat.min (i - 2) (n - 1) = Nat.min (j - 2) (n - 1) -> C i = C j).
  { intros i0 j Hij. unfold C, pad2. rewrite Hij. reflexivity. }
  destruct (Nat.eq_dec i 0) as [->|N0]; [|destruct (Nat.eq_dec i n) as [->|N1]].
  - cbn [Nat.add]. apply end_flux; [lia|apply PC; lia|]. cbn [Nat.sub].
    destruct (Req_EM_T (C 2%nat) 0) as [Z|Z]; [left; exact Z|right].
    assert (V1 : V 1%nat = - (C 2%nat * V0 2%nat / C 1%nat)) by reflexivity.
    assert (V2 : V 2%nat = V0 2%nat) by (apply bc_in; lia).
    rewrite V1, V2, (PC 1%nat 2%nat) by lia. field. exact Z.
  - replace (n + 2)%nat with (n + 1 + 1)%nat by lia.
    apply end_flux; replace (n + 1 + 1 - 1)%nat with (n + 1)%nat by lia; [lia|apply PC; lia|].
    destruct (Req_EM_T (C (n + 1 + 1)%nat) 0) as [Z|Z]; [left; exact Z|right].
    assert (V1 : V (n + 1 + 1)%nat = - (C (n + 1)%nat * V0 (n + 1)%nat / C (n + 2)%nat)).
    { replace (n + 1 + 1)%nat with (n + 2)%nat by lia. unfold V, bc. cbv zeta.
      rewrite (proj2 (Nat.eqb_neq (n + 2) 0)), (proj2 (Nat.eqb_neq (n + 2) 1)), Nat.eqb_refl by lia. reflexivity. }
    assert (V2 : V (n + 1)%nat = V0 (n + 1)%nat) by (apply bc_in; lia).
    rewrite V1, V2, (PC (n + 1)%nat (n + 2)%nat) by lia. field. rewrite (PC (n + 2)%nat (n + 1 + 1)%nat) by lia. exact Z.
  - destruct (HS ltac:(lia)) as [B1 B2].
    assert (Z : forall j, b j = true -> (j < n)%nat -> V (j + 2)%nat = 0).
    { intros j Bj Hj. unfold V. rewrite bc_in by lia. unfold V0, pad2. replace (Nat.min (j + 2 - 2) (n - 1)) with j by lia. rewrite Bj. reflexivity. }
    unfold kt_flux. cbv zeta. rewrite (Z i B2 ltac:(lia)). replace (i + 2 - 1)%nat with (i - 1 + 2)%nat by lia. rewrite (Z (i - 1)%nat B1 ltac:(lia)).
    rewrite Rabs_R0, Rmax_left by lra. unfold Rdiv. ring.
Qed.
Lemma stretch cyclic (dt dx c : R) ss n phi g b k lo hi : (lo <= hi <= n)%nat -> sealed n (fun j => b j = true) lo -> sealed n (fun j => b j = true) hi ->
  fsum (hi - lo) (fun j => kt_line cyclic dt dx c ss n phi g b k (lo + j)) = 0.
Proof.
  intros Hn H1 H2. destruct n as [|n']; [replace (hi - lo)%nat with 0%nat by lia; reflexivity|]. set (n := Datatypes.S n') in *. unfold kt_line. cbv zeta.
  set (C := fun i => nth k (pad2 n phi i) n0). set (V0 := fun i => seg_speed _ _ _ _ _ _). set (V := bc n C V0).
  rewrite (fsum_ext _ _ (fun j => dt / (2 * dx) * (kt_flux dx C V (lo + j + 2) - kt_flux dx C V (lo + (j + 1) + 2)))).
  2:{ intros i Hi. rewrite kt_update_flux by lia. replace (lo + (i + 1) + 2)%nat with (lo + i + 2 + 1)%nat by lia. unfold Rdiv. ring. }
  rewrite (fsum_scal _ _ (fun j => kt_flux dx C V (lo + j + 2) - kt_flux dx C V (lo + (j + 1) + 2))).
  rewrite (fsum_drop _ (fun j => kt_flux dx C V (lo + j + 2))). rewrite Nat.add_0_r. replace (lo + (hi - lo))%nat with hi by lia.
  unfold V, C, V0. rewrite !face_zero by (try assumption; lia). ring.
Qed.
(** Along a row, the stretch of nodes from [lo] to [hi - 1] whose two ends lie between pairs of neighbouring closed nodes (or at the ends of the
    row) keeps the total of every size class.  In particular a node that is closed and has closed neighbours, keeps its composition. *)
Lemma p_C80_rows : forall (P : params R) G A, KT0 P G = Ok A ->
  forall j k lo hi, (j < ny (pG P))%nat -> (k < ns (pG P))%nat -> (lo <= hi <= nx (pG P))%nat ->
  let closed i := closed_node P G (j * nx (pG P) + i) in
  sealed (nx (pG P)) closed lo -> sealed (nx (pG P)) closed hi ->
  fsum (hi - lo) (fun i => nth k (nth (j * nx (pG P) + (lo + i)) A []) 0) = 0.
Proof.
  intros P G A E j k lo hi Hj Hk Hl closed H1 H2. unfold KT0 in E. pbinds E. injection E as <-.
  match goal with |- fsum ?n ?f = 0 => rewrite (fsum_ext n f (fun i => kt_line (cyclic_lr (pB P)) (p_dt P) a a1 a0 (nx (pG P))
    (fun i => at0 [] (g_phi G) (j * nx (pG P) + i)) (fun i => vx (at0 v0 (g_gradpk G) (j * nx (pG P) + i)))
    (fun i => blocked P G (j * nx (pG P) + i)) k (lo + i))) end.
  - apply stretch; [exact Hl| |]; intros Q; [destruct (H1 Q)|destruct (H2 Q)]; split; apply closed_blocked; assumption.
  - intros i0 Hi0. set (i := (lo + i0)%nat). assert (Hi : (i < nx (pG P))%nat) by (unfold i; lia).
    rewrite nth_map_seq' by (unfold nodes; nia). rewrite nth_map_seq' by exact Hk. cbn [Nat.add].
    replace ((j * nx (pG P) + i) / nx (pG P))%nat with j.
    + replace ((j * nx (pG P) + i) mod nx (pG P))%nat with i; [reflexivity|].
      rewrite Nat.add_comm, Nat.mod_add by lia. symmetry. apply Nat.mod_small. exact Hi.
    + rewrite Nat.add_comm, Nat.div_add by lia. rewrite Nat.div_small by exact Hi. reflexivity.
Qed.
(** The same along columns. *)
Lemma p_C80_columns : forall (P : params R) G A, KT1 P G = Ok A ->
  forall i k lo hi, (i < nx (pG P))%nat -> (k < ns (pG P))%nat -> (lo <= hi <= ny (pG P))%nat ->
  let closed j := closed_node P G (j * nx (pG P) + i) in
  sealed (ny (pG P)) closed lo -> sealed (ny (pG P)) closed hi ->
  fsum (hi - lo) (fun j => nth k (nth ((lo + j) * nx (pG P) + i) A []) 0) = 0.
Proof.
  intros P G A E i k lo hi Hi Hk Hl closed H1 H2. unfold KT1 in E. pbinds E. injection E as <-.
  match goal with |- fsum ?n ?f = 0 => rewrite (fsum_ext n f (fun j => kt_line false (p_dt P) a a1 a0 (ny (pG P))
    (fun j => at0 [] (g_phi G) (j * nx (pG P) + i)) (fun j => vy (at0 v0 (g_gradpk G) (j * nx (pG P) + i)))
    (fun j => blocked P G (j * nx (pG P) + i)) k (lo + j))) end.
  - apply stretch; [exact Hl| |]; intros Q; [destruct (H1 Q)|destruct (H2 Q)]; split; apply closed_blocked; assumption.
  - intros j0 Hj0. set (j := (lo + j0)%nat). assert (Hj : (j < ny (pG P))%nat) by (unfold j; lia).
    rewrite nth_map_seq' by (unfold nodes; nia). rewrite nth_map_seq' by exact Hk. cbn [Nat.add].
    replace ((j * nx (pG P) + i) / nx (pG P))%nat with j.
    + replace ((j * nx (pG P) + i) mod nx (pG P))%nat with i; [reflexivity|].
      rewrite Nat.add_comm, Nat.mod_add by lia. symmetry. apply Nat.mod_small. exact Hi.
    + rewrite Nat.add_comm, Nat.div_add by lia. rewrite Nat.div_small by exact Hi. reflexivity.
Qed.
(** Two empty columns in the middle of a row of four split it into two parts. *)
Example x_C80_rows : exists (P : params R) G A, KT0 P G = Ok A /\ (0 < ny (pG P))%nat /\ (0 < ns (pG P))%nat /\ nx (pG P) = 4%nat /\
  sealed 4 (fun i => closed_node P G (0 * 4 + i)) 0 /\ sealed 4 (fun i => closed_node P G (0 * 4 + i)) 2 /\ ~ closed_node P G 0.
Proof.
  destruct (grid_init_ok (ex_gridp (T := R)) ex_bounds ex_proper) as (G0 & E0 & _).
  exists (ex_params ex_bounds <| p_c := Some 1 |> <| pG := ex_gridp <| pdx := Some 1 |> |>), (G0 <| gm := [1; 0; 0; 1] |> <| btot := repeat false 12 |>).
  eexists. split; [reflexivity|]. do 2 (split; [cbn; lia|]). split; [reflexivity|]. split; [intros Q; lia|].
  split; [intros _; split; right; cbn; lra|]. intros [Q|Q]; cbn in Q; [discriminate|lra].
Qed.
Example x_C80_columns : exists (P : params R) G A, KT1 P G = Ok A /\ (0 < nx (pG P))%nat /\ (0 < ns (pG P))%nat /\ ny (pG P) = 3%nat /\
  sealed 3 (fun j => closed_node P G (j * nx (pG P) + 0)) 0 /\ sealed 3 (fun j => closed_node P G (j * nx (pG P) + 0)) 2 /\ ~ closed_node P G 0.
Proof.
  destruct (grid_init_ok (ex_gridp (T := R)) ex_bounds ex_proper) as (G0 & E0 & _).
  exists (ex_params ex_bounds <| p_c := Some 1 |> <| pG := ex_gridp <| pdy := Some 1 |> |>), (G0 <| gm := [1; 1; 1; 1; 0; 0; 0; 0; 0; 0; 0; 0] |> <| btot := repeat false 12 |>).
  eexists. split; [reflexivity|]. do 2 (split; [cbn; lia|]). split; [reflexivity|]. split; [intros Q; lia|].
  split; [intros _; split; right; cbn; lra|]. intros [Q|Q]; cbn in Q; [discriminate|lra].
Qed.
