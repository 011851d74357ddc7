(** * Gradients on the grid and diffusion of the grain sizes *)
From Coq Require Import ZArith List Bool Arith Lia Reals Lra.
From Verif Require Import State NumR LibR LibList Spec ModelGrid ModelIntegr ProofsGrid ThmMapping ThmSeg Concrete.
Import ListNotations.
Local Open Scope R_scope.
Local Existing Instance Num_R.

(** ** C48 *)
(** A field that is affine in position. *)
Definition affine_field (Pg : gridp R) (Z : list R) (a b c : R) : Prop :=
  length Z = nodes Pg /\ forall k, (k < nodes Pg)%nat -> nth k Z 0 = a + b * node_x Pg k + c * node_y Pg k.
(** The filling of empty nodes changes nothing when there are none. *)
Definition fills (fill : list bool -> list R -> list R) : Prop :=
  forall m Z, Forall (fun b => b = false) m -> length m = length Z -> fill m Z = Z.
Definition no_empty (P : params R) (G : grid R) : Prop :=
  length (gm G) = nodes (pG P) /\ Forall (fun m => p_Mtol P <= m) (gm G).

Lemma grad1_affine (f : nat -> R) h n i a b : (2 <= n)%nat -> (i < n)%nat -> h <> 0 ->
  (forall j, (j < n)%nat -> f j = a + b * (INR j * h)) -> grad1 f h n i = b.
Proof.
  intros Hn Hi Hh Hf. unfold grad1. destruct (Nat.eqb_spec i 0) as [->|N0].
  - rewrite !Hf by lia. cbn. field. exact Hh.
  - destruct (Nat.eqb_spec i (n - 1)) as [->|N1].
    + rewrite !Hf by lia. replace (n - 1)%nat with (Datatypes.S (n - 2)) by lia. rewrite S_INR. cbn. field. exact Hh.
    + rewrite !Hf by lia. replace (i + 1)%nat with (Datatypes.S (Datatypes.S (i - 1))) by lia. rewrite !S_INR.
      unfold n2. cbn. field. exact Hh.
Qed.
Lemma grad_col_row nx ny k : (0 < nx)%nat -> (k < nx * ny)%nat -> (k mod nx < nx)%nat /\ (k / nx < ny)%nat.
Proof. intros H0 Hk. split; [apply Nat.mod_upper_bound; lia|apply Nat.div_lt_upper_bound; lia]. Qed.
Lemma node_of nx j i : (i < nx)%nat -> ((j * nx + i) mod nx)%nat = i /\ ((j * nx + i) / nx)%nat = j.
Proof.
  intros Hi. split.
  - rewrite Nat.add_comm, Nat.mod_add by lia. apply Nat.mod_small. exact Hi.
  - rewrite Nat.add_comm, Nat.div_add by lia. rewrite Nat.div_small by exact Hi. reflexivity.
Qed.
Lemma p_C48_gradient : forall fill (P : params R) G Z a b c, proper (pG P) -> grid_ok (pG P) G -> fills fill -> no_empty P G ->
  affine_field (pG P) Z a b c ->
  length (calculate_gradient fill P G Z) = nodes (pG P) /\
  forall k, (k < nodes (pG P))%nat -> nth k (calculate_gradient fill P G Z) v0 = mkV3 b c 0.
Proof.
  intros fill P G Z a b c HP HG HF [HM1 HM2] [HL HZ]. unfold calculate_gradient. cbv zeta.
  rewrite HF; [|rewrite Forall_map; eapply Forall_impl; [|exact HM2]; cbv beta; intros m Hm; apply Rltb_false; exact Hm|rewrite map_length; lia].
  rewrite map_length, seq_length. split; [reflexivity|]. intros k Hk. rewrite nth_map_seq' by exact Hk. cbn [Nat.add].
  pose proof (cell_w_pos _ HP) as W. pose proof (cell_h_pos _ HP) as H. destruct HP as (Hx & Hy & _).
  assert (N0 : map nan0 Z = Z) by (clear; induction Z as [|z Z IH]; [reflexivity|cbn [map]; rewrite IH; reflexivity]). rewrite N0.
  destruct (grad_col_row (nx (pG P)) (ny (pG P)) k) as [Hc Hr]; [lia|exact Hk|].
  rewrite (go_dx _ _ HG), (go_dy _ _ HG). f_equal.
  - unfold gradx, at0. apply (grad1_affine _ _ _ _ (a + b * x_m (pG P) + c * node_y (pG P) k)); auto; [lra|].
    intros j Hj. rewrite HZ by (unfold nodes; nia). unfold node_x, node_y, col, row. destruct (node_of (nx (pG P)) (k / nx (pG P)) j Hj) as [E1 E2].
    rewrite E1, E2. ring.
  - unfold grady, at0. apply (grad1_affine _ _ _ _ (a + b * node_x (pG P) k + c * y_m (pG P))); auto; [lra|].
    intros j Hj. rewrite HZ by (unfold nodes; nia). unfold node_x, node_y, col, row. destruct (node_of (nx (pG P)) j (k mod nx (pG P)) Hc) as [E1 E2].
    rewrite E1, E2. ring.
Qed.
(** Shear rate of an affine velocity field. *)
Lemma p_C48_gammadot : forall fill (P : params R) G a b c a' b' c', proper (pG P) -> grid_ok (pG P) G -> fills fill -> no_empty P G ->
  0 < p_Mtol P -> length (gq G) = nodes (pG P) ->
  (forall k, (k < nodes (pG P))%nat ->
     vx (nth k (gq G) v0) = nth k (gm G) 0 * (a + b * node_x (pG P) k + c * node_y (pG P) k) /\
     vy (nth k (gq G) v0) = nth k (gm G) 0 * (a' + b' * node_x (pG P) k + c' * node_y (pG P) k)) ->
  let G' := calculate_gammadot fill P G in
  length (f_gammadot G') = nodes (pG P) /\ forall k, (k < nodes (pG P))%nat -> nth k (f_gammadot G') 0 = c + b'.
Proof.
  intros fill P G a b c a' b' c' HP HG HF HM HT HQ HV. unfold calculate_gammadot. cbv zeta. cbn [f_gammadot set].
  destruct HM as [HM1 HM2].
  assert (AF : forall (f : V3 R -> R) x y z, (forall k, (k < nodes (pG P))%nat -> f (nth k (gq G) v0) = nth k (gm G) 0 * (x + y * node_x (pG P) k + z * node_y (pG P) k)) ->
    affine_field (pG P) (zipw (fun q m => (f q / m)%num) (gq G) (gm G)) x y z).
  { intros f x y z Hf. split; [rewrite zipw_length; lia|]. intros k Hk. rewrite (zipw_nth _ _ _ _ v0 0) by lia. rewrite Hf by exact Hk.
    assert (p_Mtol P <= nth k (gm G) 0) by (apply (proj1 (Forall_forall _ _) HM2), nth_In; lia). cbn. field. lra. }
  destruct (p_C48_gradient fill P G _ a b c HP HG HF (conj HM1 HM2) (AF vx a b c (fun k Hk => proj1 (HV k Hk)))) as [L1 E1].
  destruct (p_C48_gradient fill P G _ a' b' c' HP HG HF (conj HM1 HM2) (AF vy a' b' c' (fun k Hk => proj2 (HV k Hk)))) as [L2 E2].
  split; [rewrite zipw_length; lia|]. intros k Hk. rewrite (zipw_nth _ _ _ _ v0 v0) by lia. rewrite E1, E2 by exact Hk. cbn. ring.
Qed.
Example x_C48_gammadot : exists fill (P : params R) G, proper (pG P) /\ grid_ok (pG P) G /\ fills fill /\ no_empty P G /\ 0 < p_Mtol P /\
  length (gq G) = nodes (pG P) /\ nodes (pG P) = 12%nat /\
  forall k, (k < nodes (pG P))%nat -> vx (nth k (gq G) v0) = nth k (gm G) 0 * (0 + 0 * node_x (pG P) k + 1 * node_y (pG P) k) /\
     vy (nth k (gq G) v0) = nth k (gm G) 0 * (0 + 0 * node_x (pG P) k + 0 * node_y (pG P) k).
Proof.
  destruct (grid_init_ok ex_gridp ex_bounds ex_proper) as (G & EG & OK).
  exists (fun _ Z => Z), (ex_params ex_bounds),
    (G <| gm := repeat 2 12 |> <| gq := map (fun k => mkV3 (2 * node_y ex_gridp k) 0 0) (seq 0 12) |>).
  split; [exact ex_proper|]. split; [destruct OK; constructor; assumption|]. split; [intros m Z _ _; reflexivity|].
  split; [split; [reflexivity|]; cbn [gm set]; apply Forall_forall; intros m Hm; apply repeat_spec in Hm; subst m; cbn; lra|].
  split; [cbn; lra|]. split; [reflexivity|]. split; [reflexivity|].
  intros k Hk. cbn [gm gq set]. rewrite nth_map_seq' by exact Hk. cbn [Nat.add vx vy].
  assert (E : nth k (repeat 2 12) 0 = 2). { apply (repeat_spec 12). apply nth_In. exact Hk. }
  rewrite E. cbn [ex_params pG]. split; ring.
Qed.

(** ** C40 *)
Lemma mid_sum m (f : nat -> R) : fsum m (fun i => f (i + 2)%nat - f i) = f (m + 1)%nat + f m - f 1%nat - f 0%nat.
Proof. induction m as [|m IH]; cbn [fsum]; [cbn; ring|]. rewrite IH. replace (m + 2)%nat with (Datatypes.S m + 1)%nat by lia. replace (m + 1)%nat with (Datatypes.S m) by lia. ring. Qed.
Lemma grad1_sum (f : nat -> R) h n : (2 <= n)%nat -> h <> 0 ->
  fsum n (grad1 f h n) = ((f 1%nat - f 0%nat) + (f (n - 1)%nat - f (n - 2)%nat) + (f (n - 1)%nat + f (n - 2)%nat - f 1%nat - f 0%nat) / 2) / h.
Proof.
  intros Hn Hh. destruct n as [|[|m]]; try lia. replace (Datatypes.S (Datatypes.S m)) with (1 + (m + 1))%nat by lia.
  rewrite fsum_split, fsum_split. cbn [fsum]. rewrite !Rplus_0_l, Nat.add_0_r.
  rewrite (fsum_ext m _ (fun i => / (2 * h) * (f (i + 2)%nat - f i))).
  2:{ intros i Hi. unfold grad1. destruct (Nat.eqb_spec (1 + i) 0); [lia|]. destruct (Nat.eqb_spec (1 + i) (1 + (m + 1) - 1)); [lia|].
      replace (1 + i + 1)%nat with (i + 2)%nat by lia. replace (1 + i - 1)%nat with i by lia. unfold n2. cbn. field. exact Hh. }
  rewrite (fsum_scal _ _ (fun i => f (i + 2)%nat - f i)), mid_sum.
  unfold grad1 at 1 2. destruct (Nat.eqb_spec (1 + m) 0); [lia|]. cbn [Nat.eqb]. destruct (Nat.eqb_spec (1 + m) (1 + (m + 1) - 1)); [|lia].
  replace (1 + (m + 1) - 1)%nat with (m + 1)%nat by lia. replace (1 + (m + 1) - 2)%nat with m by lia. cbn [nsub ndiv Num_R]. field. exact Hh.
Qed.
(** Diffusive fluxes of class [k] at node [m] in x and y: the gradient of
    [D*phi], cut off at wall nodes. *)
Definition conc (l rho_s : R) (G : grid R) (k m : nat) : R := diffusivity l rho_s G m * nth k (nth m (g_phi G) []) 0.
Definition cut (G : grid R) (m : nat) : R := if nth m (btot G) false then 0 else 1.
Definition flux_x (Pg : gridp R) l rho_s G dx k m : R :=
  grad1 (fun i => conc l rho_s G k (row Pg m * nx Pg + i)) dx (nx Pg) (col Pg m) * cut G m.
Definition flux_y (Pg : gridp R) l rho_s G dy k m : R :=
  grad1 (fun j => conc l rho_s G k (j * nx Pg + col Pg m)) dy (ny Pg) (row Pg m) * cut G m.
Lemma grad1_ext f g h n i : (2 <= n)%nat -> (i < n)%nat -> (forall j, (j < n)%nat -> f j = g j) -> grad1 f h n i = grad1 g h n i.
Proof. intros Hn Hi E. unfold grad1. destruct (Nat.eqb_spec i 0), (Nat.eqb_spec i (n - 1)); rewrite !E by lia; reflexivity. Qed.
Lemma Diffusion_val (P : params R) rho_s G A l dx dy : p_l P = Some l -> pdx (pG P) = Some dx -> pdy (pG P) = Some dy ->
  Diffusion P rho_s G = Ok A -> (2 <= nx (pG P))%nat /\ (2 <= ny (pG P))%nat /\
  forall m k, (m < nodes (pG P))%nat -> (k < ns (pG P))%nat ->
  nth k (nth m A []) 0 = p_dt P *
    (grad1 (fun i => flux_x (pG P) l rho_s G dx k (row (pG P) m * nx (pG P) + i)) dx (nx (pG P)) (col (pG P) m) +
     grad1 (fun j => flux_y (pG P) l rho_s G dy k (j * nx (pG P) + col (pG P) m)) dy (ny (pG P)) (row (pG P) m)).
Proof.
  intros EL EX EY E. unfold Diffusion in E. rewrite EL, EX, EY in E. cbn [attr bind] in E.
  destruct (Nat.ltb_spec (nx (pG P)) 2); [discriminate|]. destruct (Nat.ltb_spec (ny (pG P)) 2); [discriminate|]. cbn [orb] in E.
  injection E as <-. split; [assumption|]. split; [assumption|]. intros m k Hm Hk. rewrite nth_map_seq' by exact Hm. rewrite nth_map_seq' by exact Hk.
  cbn [Nat.add]. destruct (grad_col_row (nx (pG P)) (ny (pG P)) m) as [Hc Hr]; [lia|exact Hm|].
  assert (OP : forall m0, nofb (negb (at0 false (btot G) m0)) = cut G m0) by (intros m0; unfold cut, at0; destruct (nth m0 (btot G) false); reflexivity).
  assert (DV : forall m0, (m0 < nodes (pG P))%nat -> at0 n0 (map (fun m => diffusivity l rho_s G m * nth k (at0 [] (g_phi G) m) n0)%num (seq 0 (nodes (pG P)))) m0 = conc l rho_s G k m0).
  { intros m0 H2. unfold at0 at 1. rewrite nth_map_seq' by exact H2. reflexivity. }
  cbn [nmul nadd Num_R]. f_equal. f_equal.
  - unfold gradx at 1. apply grad1_ext; [assumption|exact Hc|]. intros i Hi. unfold at0 at 1. rewrite nth_map_seq' by (unfold nodes; unfold row; nia).
    cbn [Nat.add]. unfold flux_x. rewrite OP. cbn [nmul Num_R]. unfold row, col.
    destruct (node_of (nx (pG P)) (m / nx (pG P)) i Hi) as [E1 E2]. f_equal. unfold gradx. rewrite E1, E2.
    apply grad1_ext; [assumption|exact Hi|]. intros i' Hi'. apply DV. unfold nodes. nia.
  - unfold grady at 1. apply grad1_ext; [assumption|exact Hr|]. intros j Hj. unfold at0 at 1. rewrite nth_map_seq' by (unfold nodes; unfold col; nia).
    cbn [Nat.add]. unfold flux_y. rewrite OP. cbn [nmul Num_R]. unfold row, col.
    destruct (node_of (nx (pG P)) j (m mod nx (pG P)) Hc) as [E1 E2]. f_equal. unfold grady. rewrite E1, E2.
    apply grad1_ext; [assumption|exact Hj|]. intros j' Hj'. apply DV. unfold nodes. nia.
Qed.
(** All nodes on the four sides are walls. *)
Definition walled (Pg : gridp R) (G : grid R) : Prop := forall m, (m < nodes Pg)%nat ->
  col Pg m = 0%nat \/ col Pg m = (nx Pg - 1)%nat \/ row Pg m = 0%nat \/ row Pg m = (ny Pg - 1)%nat -> nth m (btot G) false = true.
(** With walls on all sides the total changes by half the difference of the
    fluxes next to opposite walls: it is not conserved in general. *)
Lemma p_C40_exact : forall (P : params R) rho_s G A l dx dy, p_l P = Some l -> pdx (pG P) = Some dx -> pdy (pG P) = Some dy ->
  dx <> 0 -> dy <> 0 -> walled (pG P) G -> Diffusion P rho_s G = Ok A -> forall k, (k < ns (pG P))%nat ->
  fsum (nodes (pG P)) (fun m => nth k (nth m A []) 0) =
  p_dt P * (fsum (ny (pG P)) (fun j => (flux_x (pG P) l rho_s G dx k (j * nx (pG P) + 1) - flux_x (pG P) l rho_s G dx k (j * nx (pG P) + (nx (pG P) - 2))) / (2 * dx)) +
            fsum (nx (pG P)) (fun i => (flux_y (pG P) l rho_s G dy k (1 * nx (pG P) + i) - flux_y (pG P) l rho_s G dy k ((ny (pG P) - 2) * nx (pG P) + i)) / (2 * dy))).
Proof.
  intros P rho_s G A l dx dy EL EX EY Hdx Hdy HW E k Hk.
  destruct (Diffusion_val P rho_s G A l dx dy EL EX EY E) as (Hx & Hy & V). set (Pg := pG P) in *.
  rewrite (fsum_ext _ _ _ (fun m Hm => V m k Hm Hk)). 
  rewrite (fsum_scal _ _ (fun m => grad1 (fun i => flux_x Pg l rho_s G dx k (row Pg m * nx Pg + i)) dx (nx Pg) (col Pg m) +
     grad1 (fun j => flux_y Pg l rho_s G dy k (j * nx Pg + col Pg m)) dy (ny Pg) (row Pg m))), fsum_plus. f_equal.
  unfold nodes. rewrite Nat.mul_comm. f_equal.
  - rewrite fsum_rows. apply fsum_ext. intros j Hj.
    rewrite (fsum_ext _ _ (grad1 (fun i => flux_x Pg l rho_s G dx k (j * nx Pg + i)) dx (nx Pg))).
    2:{ intros i Hi. unfold row, col. destruct (node_of (nx Pg) j i Hi) as [E1 E2]. rewrite E1, E2. reflexivity. }
    rewrite grad1_sum by assumption. 
    assert (Z : forall i, (i < nx Pg)%nat -> i = 0%nat \/ i = (nx Pg - 1)%nat -> flux_x Pg l rho_s G dx k (j * nx Pg + i) = 0).
    { intros i Hi HE. unfold flux_x, cut. destruct (node_of (nx Pg) j i Hi) as [E1 E2]. rewrite HW; [ring|unfold nodes; nia|unfold col, row; rewrite E1; lia]. }
    rewrite (Z 0%nat), (Z (nx Pg - 1)%nat) by lia. field. assumption.
  - rewrite fsum_rows, fsum_swap. apply fsum_ext. intros i Hi.
    rewrite (fsum_ext _ _ (grad1 (fun j => flux_y Pg l rho_s G dy k (j * nx Pg + i)) dy (ny Pg))).
    2:{ intros j Hj. unfold row, col. destruct (node_of (nx Pg) j i Hi) as [E1 E2]. rewrite E1, E2. reflexivity. }
    rewrite grad1_sum by assumption.
    assert (Z : forall j, (j < ny Pg)%nat -> j = 0%nat \/ j = (ny Pg - 1)%nat -> flux_y Pg l rho_s G dy k (j * nx Pg + i) = 0).
    { intros j Hj HE. unfold flux_y, cut. destruct (node_of (nx Pg) j i Hi) as [E1 E2]. rewrite HW; [ring|unfold nodes; nia|unfold col, row; rewrite E2; lia]. }
    rewrite (Z 0%nat), (Z (ny Pg - 1)%nat) by lia. field. assumption.
Qed.
(** A uniform concentration gives no increment. *)
Lemma p_C40_uniform : forall (P : params R) rho_s G A l dx dy c k, p_l P = Some l -> pdx (pG P) = Some dx -> pdy (pG P) = Some dy ->
  Diffusion P rho_s G = Ok A -> (k < ns (pG P))%nat -> (forall m, (m < nodes (pG P))%nat -> conc l rho_s G k m = c) ->
  forall m, (m < nodes (pG P))%nat -> nth k (nth m A []) 0 = 0.
Proof.
  intros P rho_s G A l dx dy c k EL EX EY E Hk HU m Hm.
  destruct (Diffusion_val P rho_s G A l dx dy EL EX EY E) as (Hx & Hy & V). rewrite V by assumption. set (Pg := pG P) in *.
  destruct (grad_col_row (nx Pg) (ny Pg) m) as [Hc Hr]; [lia|exact Hm|].
  assert (Z0 : forall h n i, grad1 (fun _ => 0) h n i = 0).
  { intros h n i. unfold grad1. cbn. destruct (Nat.eqb i 0), (Nat.eqb i (n - 1)); unfold Rdiv; ring. }
  assert (ZC : forall h n i, grad1 (fun _ => c) h n i = 0).
  { intros h n i. unfold grad1. cbn. destruct (Nat.eqb i 0), (Nat.eqb i (n - 1)); unfold Rdiv; ring. }
  rewrite (grad1_ext _ (fun _ => 0)), (grad1_ext (fun j => flux_y _ _ _ _ _ _ _) (fun _ => 0)), !Z0; try assumption; [ring| |].
  - intros j Hj. unfold flux_y. unfold row, col. destruct (node_of (nx Pg) j (m mod nx Pg) Hc) as [E1 E2]. rewrite E1, E2.
    rewrite (grad1_ext _ (fun _ => c)); [rewrite ZC; ring|assumption|assumption|]. intros j' Hj'. apply HU. unfold nodes. nia.
  - intros i Hi. unfold flux_x. unfold row, col. destruct (node_of (nx Pg) (m / nx Pg) i Hi) as [E1 E2]. rewrite E1, E2.
    rewrite (grad1_ext _ (fun _ => c)); [rewrite ZC; ring|assumption|assumption|]. intros i' Hi'. apply HU. unfold nodes. nia.
Qed.
Example x_C40_exact : exists (P : params R) rho_s G A, p_l P = Some 1 /\ pdx (pG P) = Some 1 /\ pdy (pG P) = Some 1 /\ walled (pG P) G /\
  Diffusion P rho_s G = Ok A /\ (exists m, (m < nodes (pG P))%nat /\ nth m (btot G) false = false) /\ flux_x (pG P) 1 rho_s G 1 0 5 = 1 / 4.
Proof.
  destruct (grid_init_ok ex_gridp ex_bounds ex_proper) as (G & EG & OK).
  set (P := ex_params (T := R) ex_bounds <| p_l := Some 1 |> <| pG := ex_gridp <| pdx := Some 1 |> <| pdy := Some 1 |> |>).
  set (t := true). set (f := false).
  set (G' := G <| btot := [t;t;t;t; t;f;f;t; t;t;t;t] |> <| gm := repeat 1 12 |> <| g_sbar := repeat 1 12 |> <| f_gammadot := repeat 1 12 |>
               <| f_pressure := repeat 1 12 |> <| g_phi := [[0];[0];[0];[0]; [0];[1];[1/2];[0]; [0];[0];[0];[0]] |>).
  exists P, 1, G'. eexists. split; [reflexivity|]. split; [reflexivity|]. split; [reflexivity|]. split.
  { intros m Hm. change (m < 12)%nat in Hm. do 12 (destruct m as [|m]; [cbn; try reflexivity; intuition discriminate|]). lia. }
  split; [reflexivity|]. split; [exists 5%nat; split; [cbn; lia|reflexivity]|].
  assert (CV : forall m, (m < 12)%nat -> conc 1 1 G' 0 m = nth 0 (nth m (g_phi G') []) 0).
  { intros m Hm. assert (E1 : nth m (repeat 1 12) 0 = 1) by (apply (repeat_spec 12), nth_In; exact Hm).
    unfold conc, diffusivity, at0. cbn [G' g_sbar gm f_gammadot f_pressure g_phi set n0 Num_R]. rewrite E1. cbn [npow nmul ndiv nsqrt nabs Num_R].
    unfold Rpow. destruct (Rlt_dec 0 1) as [_|N]; [|lra]. unfold Rpower. rewrite ln_1, Rmult_0_r, exp_0. unfold Rdiv at 2. rewrite Rinv_1, !Rmult_1_r, Rabs_R1, sqrt_1. field. }
  unfold flux_x. change (row (pG P) 5) with 1%nat. change (nx (pG P)) with 4%nat. change (col (pG P) 5) with 1%nat. unfold grad1.
  rewrite !CV by (cbn; lia). cbn. unfold n2, cut. cbn. lra.
Qed.
