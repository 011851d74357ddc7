(** * Bodies moved by whole cells, and observers that move by whole cells: C144, C143. *)
From Coq Require Import ZArith Reals List Bool Arith Lra Lia.
From RecordUpdate Require Import RecordUpdate.
From Verif Require Import State NumR Spec SpecLaws SpecStep SpecScheme SpecView LibList LibR ModelGrid ModelConstit ModelParticle ModelMPList
  ModelIntegr ModelMain ProofsGrid ProofsMap ProofsP2G ProofsWalls ProofsLaws ProofsInOut ProofsHist Concrete
  ThmMapping ThmWalls ThmLaws ThmInOut ThmHist ProofsStep ProofsPoints ThmStep ThmBalance ThmEnergy ThmFall ThmGeo ProofsScheme ProofsView ThmScheme ThmView ThmSpin ThmAngular ThmBeat ThmObserver ThmSilent.
Import ListNotations.
Local Open Scope R_scope.

(** A place, and a point, moved by [i] cells to the right and [j] cells up. *)
Definition by_cells (P : gridp R) (i j : Z) (x : V3 R) : V3 R := mkV3 (vx x + IZR i * cell_w P) (vy x + IZR j * cell_h P) (vz x).
Definition carried (P : gridp R) (i j : Z) (q : mp) : mp :=
  mkMp (q_mat q) (q_m q) (q_V q) (by_cells P i j (q_x q)) (q_v q) (q_s q) (q_p q) (q_b q) (q_first q).

Section Nodes.
  Context (P : gridp R) (HP : proper P) (i j : Z).
  Definition rel (k k' : nat) : Prop := Z.of_nat (col P k') = (Z.of_nat (col P k) + i)%Z /\ Z.of_nat (row P k') = (Z.of_nat (row P k) + j)%Z.
  Lemma nat_R a b z : Z.of_nat b = (Z.of_nat a + z)%Z -> INR b = INR a + IZR z.
  Proof. intros H. rewrite !INR_IZR_INZ, H, plus_IZR. reflexivity. Qed.
  Lemma rel_x x k k' : rel k k' -> vx (by_cells P i j x) - node_x P k' = vx x - node_x P k.
  Proof. intros [A _]. unfold by_cells, node_x. cbn [vx]. rewrite (nat_R _ _ _ A). ring. Qed.
  Lemma rel_y x k k' : rel k k' -> vy (by_cells P i j x) - node_y P k' = vy x - node_y P k.
  Proof. intros [_ A]. unfold by_cells, node_y. cbn [vy]. rewrite (nat_R _ _ _ A). ring. Qed.
  Lemma rel_hat x k k' : rel k k' -> hat P (by_cells P i j x) k' = hat P x k.
  Proof. intros A. unfold hat. rewrite (rel_x x k k' A), (rel_y x k k' A). reflexivity. Qed.
  Lemma rel_ghat x a k k' : rel k k' -> ghat P (by_cells P i j x) a k' = ghat P x a k.
  Proof. intros A. unfold ghat. rewrite (rel_x x k k' A), (rel_y x k k' A). reflexivity. Qed.
  Lemma same_cell w lo x a b (z : Z) : 0 < w -> lo + INR a * w <= x < lo + INR (a + 1) * w -> lo + INR b * w <= x + IZR z * w < lo + INR (b + 1) * w -> Z.of_nat b = (Z.of_nat a + z)%Z.
  Proof.
    intros W A B. rewrite plus_INR in A, B. simpl (INR 1) in A, B.
    assert (L : INR b - INR a - IZR z < 1) by (apply (Rmult_lt_reg_r w); [exact W|]; lra).
    assert (U : -1 < INR b - INR a - IZR z) by (apply (Rmult_lt_reg_r w); [exact W|]; lra).
    rewrite !INR_IZR_INZ, <- !minus_IZR in L, U. apply lt_IZR in L. change (-1) with (IZR (-1)) in U. apply lt_IZR in U. lia.
  Qed.
  Lemma at_node a b : (a < nx P)%nat -> col P (b * nx P + a) = a /\ row P (b * nx P + a) = b.
  Proof.
    intros H. unfold col, row. split.
    - rewrite Nat.add_comm, Nat.mod_add by lia. apply Nat.mod_small, H.
    - rewrite Nat.add_comm, Nat.div_add by lia. rewrite Nat.div_small by exact H. lia.
  Qed.
  (** Sums over all nodes of what vanishes off the corners of a cell. *)
  Lemma cell_sum x f : in_dom P x -> (forall k, (forall r, (r < 4)%nat -> k <> corner_node P (cell_node P x) r) -> f k = 0) ->
    fsum (nodes P) f = fsum 4 (fun r => f (corner_node P (cell_node P x) r)).
  Proof.
    intros [Hx Hy] H. destruct (cell_i_spec P HP _ Hx) as (I & _), (cell_j_spec P HP _ Hy) as (J & _).
    set (n := cell_node P x) in *.
    assert (LT : forall r, (corner_node P n r < nodes P)%nat).
    { assert (A : (n + nx P + 1 < nodes P)%nat) by (unfold n, cell_node, nodes; nia). intros [|[|[|r]]]; cbn; lia. }
    rewrite (fsum_ext _ _ (fun k => fsum 4 (fun r => if Nat.eqb k (corner_node P n r) then f (corner_node P n r) else 0))).
    - rewrite fsum_swap. apply fsum_ext. intros r _. apply fsum_delta, LT.
    - intros k Hk. destruct HP as (NX & _). cbn [fsum corner_node].
      destruct (Nat.eqb_spec k n), (Nat.eqb_spec k (n + 1)), (Nat.eqb_spec k (n + nx P + 1)), (Nat.eqb_spec k (n + nx P)); subst; try lia; try ring.
      rewrite H; [ring|]. intros [|[|[|[|r]]]] Hr; cbn; lia || assumption.
  Qed.
  Lemma rel_corner x r : in_dom P x -> in_dom P (by_cells P i j x) -> (r < 4)%nat -> rel (corner_node P (cell_node P x) r) (corner_node P (cell_node P (by_cells P i j x)) r).
  Proof.
    intros [Hx Hy] [Hx' Hy'] Hr. destruct (cell_i_spec P HP _ Hx) as (I & BI & _), (cell_j_spec P HP _ Hy) as (J & BJ & _), (cell_i_spec P HP _ Hx') as (I' & BI' & _), (cell_j_spec P HP _ Hy') as (J' & BJ' & _).
    unfold by_cells in BI', BJ', I', J' |- *. cbn [vx vy] in *.
    pose proof (same_cell _ _ _ _ _ i (cell_w_pos P HP) BI BI') as A. pose proof (same_cell _ _ _ _ _ j (cell_h_pos P HP) BJ BJ') as B.
    unfold cell_node. cbn [vx vy].
    set (a := cell_i P (vx x)) in *. set (b := cell_j P (vy x)) in *. set (a' := cell_i P (vx x + IZR i * cell_w P)) in *. set (b' := cell_j P (vy x + IZR j * cell_h P)) in *. clearbody a b a' b'.
    assert (C : forall u v w z, (u < nx P)%nat -> (w < nx P)%nat -> Z.of_nat w = (Z.of_nat u + i)%Z -> Z.of_nat z = (Z.of_nat v + j)%Z -> rel (v * nx P + u) (z * nx P + w)).
    { intros u v w z Hu Hw E1 E2. unfold rel. destruct (at_node u v Hu) as [-> ->], (at_node w z Hw) as [-> ->]. split; assumption. }
    destruct r as [|[|[|[|r]]]]; [| | | |lia]; cbn [corner_node].
    - apply C; lia.
    - replace (b * nx P + a + 1)%nat with (b * nx P + (a + 1))%nat by lia. replace (b' * nx P + a' + 1)%nat with (b' * nx P + (a' + 1))%nat by lia. apply C; lia.
    - replace (b * nx P + a + nx P + 1)%nat with ((b + 1) * nx P + (a + 1))%nat by lia. replace (b' * nx P + a' + nx P + 1)%nat with ((b' + 1) * nx P + (a' + 1))%nat by lia. apply C; lia.
    - replace (b * nx P + a + nx P)%nat with ((b + 1) * nx P + a)%nat by lia. replace (b' * nx P + a' + nx P)%nat with ((b' + 1) * nx P + a')%nat by lia. apply C; lia.
  Qed.
  Lemma rel_sum x f f' : in_dom P x -> in_dom P (by_cells P i j x) ->
    (forall k, (forall r, (r < 4)%nat -> k <> corner_node P (cell_node P x) r) -> f k = 0) ->
    (forall k, (forall r, (r < 4)%nat -> k <> corner_node P (cell_node P (by_cells P i j x)) r) -> f' k = 0) ->
    (forall k k', rel k k' -> f' k' = f k) -> fsum (nodes P) f' = fsum (nodes P) f.
  Proof.
    intros HD HD' F F' HR. rewrite (cell_sum x f HD F), (cell_sum _ f' HD' F'). apply fsum_ext. intros r Hr. apply HR, rel_corner; assumption.
  Qed.
End Nodes.

Section Carry.
  Context (E : scheme) (i j : Z) (B : list mp).
  Hypothesis (HP : proper (e_P E)) (HO : forall a k, e_open E a k = 1).
  Hypothesis (HD : forall q, In q B -> in_dom (e_P E) (q_x q) /\ in_dom (e_P E) (by_cells (e_P E) i j (q_x q))).
  Let mv := carried (e_P E) i j.
  Let B' := map mv B.
  Lemma carry_mass k k' : rel (e_P E) i j k k' -> t_mass E B' k' = t_mass E B k.
  Proof. intros A. unfold t_mass, B'. rewrite map_map. apply Rsum_ext. intros q _. cbn [mv carried q_m q_x]. rewrite (rel_hat _ _ _ _ k k' A). reflexivity. Qed.
  Lemma carry_vel a k k' : rel (e_P E) i j k k' -> t_vel E B' a k' = t_vel E B a k.
  Proof.
    intros A. unfold t_vel. rewrite (carry_mass k k' A), !HO. destruct (Rlt_dec _ _); [|reflexivity]. do 2 f_equal.
    unfold B'. rewrite map_map. apply Rsum_ext. intros q _. cbn [mv carried q_m q_x q_v]. rewrite (rel_hat _ _ _ _ k k' A). reflexivity.
  Qed.
  Lemma carry_strain q : In q B -> t_strain E B' (mv q) = t_strain E B q.
  Proof.
    intros Hq. destruct (HD q Hq) as [D D']. unfold t_strain. cbn [mv carried q_x].
    assert (X : forall a b, fsum (e_nodes E) (fun k => (t_vel E B' a k * ghat (e_P E) (by_cells (e_P E) i j (q_x q)) b k + t_vel E B' b k * ghat (e_P E) (by_cells (e_P E) i j (q_x q)) a k) / 2) =
      fsum (e_nodes E) (fun k => (t_vel E B a k * ghat (e_P E) (q_x q) b k + t_vel E B b k * ghat (e_P E) (q_x q) a k) / 2)).
    { intros a b. apply (rel_sum (e_P E) HP i j (q_x q)); try assumption.
      - intros k N. rewrite !(ghat_far (e_P E) HP _ _ k D N). field.
      - intros k N. rewrite !(ghat_far (e_P E) HP _ _ k D' N). field.
      - intros k k' A. rewrite !(carry_vel _ k k' A), !(rel_ghat _ _ _ _ _ k k' A). reflexivity. }
    unfold m3. rewrite !X. reflexivity.
  Qed.
  Lemma carry_strained : map (t_strained E B') B' = map mv (map (t_strained E B) B).
  Proof. unfold B' at 2. rewrite !map_map. apply map_ext_in. intros q Hq. unfold t_strained at 1. rewrite (carry_strain q Hq). reflexivity. Qed.
  Lemma carry_acc C a k k' : rel (e_P E) i j k k' -> t_acc E B' (map mv C) a k' = t_acc E B C a k.
  Proof.
    intros A. unfold t_acc. rewrite (carry_mass k k' A), !HO. destruct (Rlt_dec _ _); [|reflexivity]. do 3 f_equal.
    unfold t_force. rewrite map_map. apply Rsum_ext. intros q _. cbn [mv carried q_m q_x q_b q_V q_s]. rewrite (rel_hat _ _ _ _ k k' A). unfold over. rewrite !(rel_ghat _ _ _ _ _ k k' A). reflexivity.
  Qed.
  Lemma carry_step : t_step E B' = map mv (t_step E B).
  Proof.
    unfold t_step. rewrite carry_strained. set (C := map (t_strained E B) B).
    rewrite !map_map. apply map_ext_in. intros q Hq. unfold C in Hq. apply in_map_iff in Hq. destruct Hq as (q0 & <- & Hq). destruct (HD q0 Hq) as [D D'].
    unfold t_moved, mv, carried. cbn [q_mat q_m q_V q_x q_v q_s q_p q_b q_first t_strained]. fold mv.
    assert (X : forall a, fsum (e_nodes E) (fun k => hat (e_P E) (by_cells (e_P E) i j (q_x q0)) k * (t_vel E B' a k + e_dt E * t_acc E B' (map mv C) a k)) =
      fsum (e_nodes E) (fun k => hat (e_P E) (q_x q0) k * (t_vel E B a k + e_dt E * t_acc E B C a k))).
    { intros a. apply (rel_sum (e_P E) HP i j (q_x q0)); try assumption.
      - intros k N. rewrite (hat_far (e_P E) HP _ k D N). ring.
      - intros k N. rewrite (hat_far (e_P E) HP _ k D' N). ring.
      - intros k k' A. rewrite (carry_vel _ k k' A), (carry_acc C _ k k' A), (rel_hat _ _ _ _ k k' A). reflexivity. }
    assert (Y : forall a, fsum (e_nodes E) (fun k => hat (e_P E) (by_cells (e_P E) i j (q_x q0)) k * t_acc E B' (map mv C) a k) =
      fsum (e_nodes E) (fun k => hat (e_P E) (q_x q0) k * t_acc E B C a k)).
    { intros a. apply (rel_sum (e_P E) HP i j (q_x q0)); try assumption.
      - intros k N. rewrite (hat_far (e_P E) HP _ k D N). ring.
      - intros k N. rewrite (hat_far (e_P E) HP _ k D' N). ring.
      - intros k k' A. rewrite (carry_acc C _ k k' A), (rel_hat _ _ _ _ k k' A). reflexivity. }
    f_equal; unfold by_cells, v3; cbn [comp vx vy vz]; unfold by_cells in X, Y; rewrite ?X, ?Y; f_equal; ring.
  Qed.
  Lemma carry_heavy : all_heavy E B -> all_heavy E B'.
  Proof.
    intros HH q' k' Hq Hk HN. unfold B' in Hq. apply in_map_iff in Hq. destruct Hq as (q & <- & Hq). destruct (HD q Hq) as [D D']. cbn [mv carried q_x] in HN.
    assert (X : exists r, (r < 4)%nat /\ k' = corner_node (e_P E) (cell_node (e_P E) (by_cells (e_P E) i j (q_x q))) r).
    { set (c := corner_node (e_P E) (cell_node (e_P E) (by_cells (e_P E) i j (q_x q)))) in *.
      destruct (Nat.eq_dec k' (c 0%nat)); [exists 0%nat; split; [lia|assumption]|]. destruct (Nat.eq_dec k' (c 1%nat)); [exists 1%nat; split; [lia|assumption]|].
      destruct (Nat.eq_dec k' (c 2%nat)); [exists 2%nat; split; [lia|assumption]|]. destruct (Nat.eq_dec k' (c 3%nat)); [exists 3%nat; split; [lia|assumption]|].
      exfalso. assert (N : forall r, (r < 4)%nat -> k' <> c r) by (intros [|[|[|[|r]]]] Hr; lia || assumption).
      destruct HN as [HN|[a HN]]; apply HN; [apply (hat_far (e_P E) HP _ k' D' N)|apply (ghat_far (e_P E) HP _ a k' D' N)]. }
    destruct X as (r & Hr & ->). pose proof (rel_corner (e_P E) HP i j (q_x q) r D D' Hr) as A. rewrite (carry_mass _ _ A).
    apply (HH q _ Hq).
    - destruct (D) as [Hx Hy]. destruct (cell_i_spec _ HP _ Hx) as (I & _), (cell_j_spec _ HP _ Hy) as (J & _).
      assert (Z : (cell_node (e_P E) (q_x q) + nx (e_P E) + 1 < e_nodes E)%nat) by (unfold cell_node, e_nodes; nia).
      clear A HN Hk. destruct r as [|[|[|r]]]; cbn; lia.
    - rewrite (rel_hat _ _ _ _ _ _ A) in HN. destruct HN as [HN|[a HN]]; [left; exact HN|]. right. exists a. rewrite (rel_ghat _ _ _ _ _ _ _ A) in HN. exact HN.
  Qed.
End Carry.

Lemma free_open P ld G : wall_free (bv G) (bh G) -> forall a k, e_open (scheme_of P ld G) a k = 1.
Proof. intros HW a k. cbn [scheme_of e_open]. unfold passes. destruct (HW k) as [V1 V2]. rewrite V1, V2. destruct a, (roughness (pB P)); reflexivity. Qed.
Lemma carry_run uf i j n : forall P G B, proper (pG P) -> wall_free (bv G) (bh G) ->
  (forall k, (k < n)%nat -> Forall (fun q => in_dom (pG P) (q_x q) /\ in_dom (pG P) (by_cells (pG P) i j (q_x q))) (t_run uf k P G B)) ->
  t_run uf n P G (map (carried (pG P) i j) B) = map (carried (pG P) i j) (t_run uf n P G B).
Proof.
  intros P G B HP HW. induction n as [|n IH]; intros HD; [reflexivity|].
  rewrite !t_run_S, IH by (intros k Hk; apply HD; lia).
  destruct (clock_grid uf n P) as (E1 & _). pose proof (carry_step (scheme_at uf n P G) i j (t_run uf n P G B)) as A.
  unfold scheme_at in *. cbn [scheme_of e_P] in A. rewrite E1 in A. apply A; [exact HP|apply free_open, HW|].
  intros q Hq. pose proof (HD n (Nat.lt_succ_diag_r n)) as F. rewrite Forall_forall in F. exact (F q Hq).
Qed.
Lemma seen_cells P (V : V3 R) t i j q : t * vx V = IZR i * cell_w P -> t * vy V = IZR j * cell_h P -> vz V = 0 ->
  forall u, seen_from V (t + u) q = seen_from V u (carried P i j q).
Proof.
  intros X Y Z u. unfold seen_from, carried. cbn [q_mat q_m q_V q_x q_v q_s q_p q_b q_first]. f_equal. unfold add3, v3, by_cells. cbn [comp vx vy vz]. rewrite Z. f_equal; rewrite ?Rmult_plus_distr_r, ?X, ?Y; ring.
Qed.
Lemma watch_run uf (V : V3 R) i j n : forall P G B, proper (pG P) -> wall_free (bv G) (bh G) -> 0 <= p_Mtol P ->
  p_dt P * vx V = IZR i * cell_w (pG P) -> p_dt P * vy V = IZR j * cell_h (pG P) -> vz V = 0 ->
  (forall k, (k < n)%nat -> all_heavy (scheme_at uf k P G) (t_run uf k P G B) /\
    Forall (fun q => in_dom (pG P) (q_x q) /\ in_dom (pG P) (add3 (q_x q) (INR k * p_dt P) V)) (t_run uf k P G B)) ->
  t_run uf n P G (map (seen_from V 0) B) = map (seen_from V (INR n * p_dt P)) (t_run uf n P G B).
Proof.
  intros P G B HP HW HT X Y Z. 
  assert (S : forall k u q, seen_from V (INR k * p_dt P + u) q = seen_from V u (carried (pG P) (Z.of_nat k * i) (Z.of_nat k * j) q)).
  { intros k u q. apply seen_cells; [| |exact Z]; rewrite mult_IZR, <- INR_IZR_INZ, !Rmult_assoc, ?X, ?Y; reflexivity. }
  induction n as [|n IH]; intros HD; [cbn [t_run INR]; rewrite Rmult_0_l; reflexivity|].
  rewrite !t_run_S, IH by (intros k Hk; apply HD; lia).
  set (C := t_run uf n P G B). destruct (HD n (Nat.lt_succ_diag_r n)) as [HH F]. fold C in HH, F. rewrite Forall_forall in F.
  set (mv := carried (pG P) (Z.of_nat n * i) (Z.of_nat n * j)).
  replace (map (seen_from V (INR n * p_dt P)) C) with (map (seen_from V 0) (map mv C)) by (rewrite map_map; apply map_ext; intros q; unfold mv; rewrite <- S, Rplus_0_r; reflexivity).
  destruct (clock_grid uf n P) as (E1 & E2 & E3 & E4 & E5 & E6).
  set (E := scheme_at uf n P G) in *. assert (EP : e_P E = pG P) by exact E1. assert (ED : e_dt E = p_dt P) by exact E3.
  assert (HO : forall a k, e_open E a k = 1) by (intros; apply free_open, HW).
  assert (HT' : 0 <= e_tol E) by (unfold E, scheme_at, scheme_of; cbn [e_tol]; congruence).
  assert (HC : forall q, In q C -> in_dom (e_P E) (q_x q) /\ in_dom (e_P E) (by_cells (e_P E) (Z.of_nat n * i) (Z.of_nat n * j) (q_x q))).
  { intros q Hq. rewrite EP. destruct (F q Hq) as [F1 F2]. split; [exact F1|]. pose proof (f_equal q_x (S n 0 q)) as K. rewrite Rplus_0_r in K. cbn [seen_from q_x carried] in K. rewrite add0 in K. rewrite <- K. exact F2. }
  assert (HP' : proper (e_P E)) by (rewrite EP; exact HP).
  unfold mv. rewrite <- EP. rewrite (boost_step E V (map (carried (e_P E) (Z.of_nat n * i) (Z.of_nat n * j)) C) HP' HO HT').
  - rewrite (carry_step E _ _ C HP' HO HC), map_map, ED, EP. apply map_ext. intros q. rewrite <- S. f_equal. rewrite S_INR. ring.
  - intros q' Hq. apply in_map_iff in Hq. destruct Hq as (q & <- & Hq). exact (proj2 (HC q Hq)).
  - exact (carry_heavy E _ _ C HP' HC HH).
Qed.

(** ** C143, again *)
(** Over any number of steps, when the observer moves by a whole number of cells per step. *)
Lemma p_C143_run : forall uf fill fill' (V : V3 R) i j n (s t : state R) tr tr', plain s -> plain t -> sP t = sP s -> sG t = sG s ->
  wall_free (bv (sG s)) (bh (sG s)) -> 0 <= p_Mtol (sP s) -> (forall P, no_surface (sP s) (uf P)) ->
  p_dt (sP s) * vx V = IZR i * cell_w (pG (sP s)) -> p_dt (sP s) * vy V = IZR j * cell_h (pG (sP s)) -> vz V = 0 ->
  bodies (sL t) = map (seen_from V 0) (bodies (sL s)) ->
  (forall k, (k < n)%nat -> let B := t_run uf k (sP s) (sG s) (bodies (sL s)) in all_heavy (scheme_at uf k (sP s) (sG s)) B /\
    Forall (fun q => in_dom (pG (sP s)) (q_x q) /\ in_dom (pG (sP s)) (add3 (q_x q) (INR k * p_dt (sP s)) V) /\ (p_check (sP s) = true -> vz (q_x q) = 0)) B) ->
  exists s' sr t' sr', after uf fill n s tr = Ok (s', sr) /\ after uf fill' n t tr' = Ok (t', sr') /\
  bodies (sL t') = map (seen_from V (INR n * p_dt (sP s))) (bodies (sL s')).
Proof.
  intros uf fill fill' V i j n s t tr tr' Hs Ht EP EG HW HT HN X Y Z EB HD.
  assert (W : forall k, (k <= n)%nat -> t_run uf k (sP s) (sG s) (map (seen_from V 0) (bodies (sL s))) = map (seen_from V (INR k * p_dt (sP s))) (t_run uf k (sP s) (sG s) (bodies (sL s)))).
  { intros k Hk. apply (watch_run uf V i j k _ _ _ (pl_proper s Hs) HW HT X Y Z). intros l Hl. destruct (HD l ltac:(lia)) as [H1 H2]. split; [exact H1|]. revert H2. apply Forall_impl. intros q (A & B & _). split; assumption. }
  destruct (p_C84_run uf fill n s tr Hs HN) as (s' & sr & E1 & _ & B1).
  { intros k Hk. destruct (HD k Hk) as [_ H2]. revert H2. apply Forall_impl. intros q (A & _ & B). split; assumption. }
  destruct (p_C84_run uf fill' n t tr' Ht) as (t' & sr' & E2 & _ & B2); [rewrite EP; exact HN| |].
  - intros k Hk. rewrite EP, EG, EB, (W k) by lia. apply Forall_forall. intros q' Hq. apply in_map_iff in Hq. destruct Hq as (q & <- & Hq).
    destruct (HD k Hk) as [_ H2]. cbv zeta in H2. rewrite Forall_forall in H2. destruct (H2 q Hq) as (_ & A & B). split; [exact A|]. intros C. cbn [seen_from q_x]. unfold add3, v3. cbn [vz comp]. rewrite (B C), Z. ring.
  - exists s', sr, t', sr'. split; [exact E1|]. split; [exact E2|]. rewrite B1, B2, EP, EG, EB. apply W. lia.
Qed.

(** ** C144 *)
(** Bodies moved by a whole number of cells, along the axes, do as before: after any
    number of steps the points differ by just that shift. *)
Lemma p_C144_cells : forall uf fill fill' i j n (s t : state R) tr tr', plain s -> plain t -> sP t = sP s -> sG t = sG s ->
  wall_free (bv (sG s)) (bh (sG s)) -> (forall P, no_surface (sP s) (uf P)) ->
  bodies (sL t) = map (carried (pG (sP s)) i j) (bodies (sL s)) ->
  (forall k, (k < n)%nat -> Forall (fun q => in_dom (pG (sP s)) (q_x q) /\ in_dom (pG (sP s)) (by_cells (pG (sP s)) i j (q_x q)) /\ (p_check (sP s) = true -> vz (q_x q) = 0))
    (t_run uf k (sP s) (sG s) (bodies (sL s)))) ->
  exists s' sr t' sr', after uf fill n s tr = Ok (s', sr) /\ after uf fill' n t tr' = Ok (t', sr') /\
  bodies (sL t') = map (carried (pG (sP s)) i j) (bodies (sL s')).
Proof.
  intros uf fill fill' i j n s t tr tr' Hs Ht EP EG HW HN EB HD.
  assert (W : forall k, (k <= n)%nat -> t_run uf k (sP s) (sG s) (map (carried (pG (sP s)) i j) (bodies (sL s))) = map (carried (pG (sP s)) i j) (t_run uf k (sP s) (sG s) (bodies (sL s)))).
  { intros k Hk. apply (carry_run uf i j k _ _ _ (pl_proper s Hs) HW). intros l Hl. pose proof (HD l ltac:(lia)) as H2. revert H2. apply Forall_impl. intros q (A & B & _). split; assumption. }
  destruct (p_C84_run uf fill n s tr Hs HN) as (s' & sr & E1 & _ & B1).
  { intros k Hk. pose proof (HD k Hk) as H2. revert H2. apply Forall_impl. intros q (A & _ & B). split; assumption. }
  destruct (p_C84_run uf fill' n t tr' Ht) as (t' & sr' & E2 & _ & B2); [rewrite EP; exact HN| |].
  - intros k Hk. rewrite EP, EG, EB, (W k) by lia. apply Forall_forall. intros q' Hq. apply in_map_iff in Hq. destruct Hq as (q & <- & Hq).
    pose proof (HD k Hk) as H2. rewrite Forall_forall in H2. destruct (H2 q Hq) as (_ & A & B). split; assumption.
  - exists s', sr, t', sr'. split; [exact E1|]. split; [exact E2|]. rewrite B1, B2, EP, EG, EB. apply W. lia.
Qed.
(** A point set down at another place. *)
Definition slid (d : R) (q : mp) : mp :=
  mkMp (q_mat q) (q_m q) (q_V q) (mkV3 (vx (q_x q) + d) (vy (q_x q)) (vz (q_x q))) (q_v q) (q_s q) (q_p q) (q_b q) (q_first q).
Definition astride (d v : R) : list (phase R) :=
  [mkPhase (stuff 3 2) 2 v0 [ex_particle (1/4 + d) (1/2) (mkV3 v 0 0) m0; ex_particle (3/4 + d) (1/2) (mkV3 (- v) 0 0) m0]].
Lemma astride_plain G d v : grid_ok ex_gridp G -> plain (pair_state G (astride d v)).
Proof.
  intros OK. constructor; try assumption; try reflexivity; try (cbn; lra).
  - exact ex_proper.
  - intros ph [<-|[]]. reflexivity.
  - intros ph [<-|[]]. left. reflexivity.
  - eexists. split; [reflexivity|]. intros ph [<-|[]]. unfold equipped, has. cbn. split; discriminate.
  - intros ph p [<-|[]] [<-|[<-|[]]]; eexists; reflexivity.
  - repeat split; reflexivity.
  - left; reflexivity.
Qed.
Lemma astride_inside d v : 0 <= d < 1/4 -> Forall (fun q => in_dom (ex_gridp (T := R)) (q_x q) /\ (p_check (ex_params (T := R) ex_bounds) = true -> vz (q_x q) = 0)) (bodies (astride d v)).
Proof. intros Hd. repeat constructor; cbn; try (unR; lra); try reflexivity. Qed.
Lemma hat_d c k : 0 <= c < 1 -> (k < 12)%nat -> hat (ex_gridp (T := R)) (mkV3 c (1/2) 0) k = nth k [(1 - c)/2; c/2; 0; 0; (1 - c)/2; c/2; 0; 0; 0; 0; 0; 0] 0.
Proof. intros Hc Hk. unfold hat. rewrite (proj1 unit_cells), (proj2 unit_cells), (proj1 (node_at k)), (proj2 (node_at k)).
  assert (T : forall y, tent ((1/2 - y) / 1) = tent (1/2 - y)) by (intros; f_equal; field).
  assert (T1 : tent ((c - 0) / 1) = 1 - c /\ tent ((c - 1) / 1) = c /\ tent ((c - 2) / 1) = 0 /\ tent ((c - 3) / 1) = 0) by (repeat split; tents).
  assert (T2 : tent ((1/2 - 0) / 1) = 1/2 /\ tent ((1/2 - 1) / 1) = 1/2 /\ tent ((1/2 - 2) / 1) = 0) by (repeat split; tents).
  destruct T1 as (A1 & A2 & A3 & A4), T2 as (B1 & B2 & B3).
  do 12 (destruct k as [|k]; [cbn - [tent]; replace (1 + 1) with 2 by ring; replace (2 + 1) with 3 by ring; rewrite ?A1, ?A2, ?A3, ?A4, ?B1, ?B2, ?B3; lra|]). lia.
Qed.
Lemma gx_d c k : 0 <= c < 1 -> (k < 12)%nat -> ghat (ex_gridp (T := R)) (mkV3 c (1/2) 0) AX k = nth k [-1/2; 1/2; 0; 0; -1/2; 1/2; 0; 0; 0; 0; 0; 0] 0.
Proof. intros Hc Hk. unfold ghat. at_nodes k Hk. Qed.
Lemma astride_squeezed G d v : 0 <= d < 1/4 -> wall_free (bv G) (bh G) ->
  map (fun q => xx (q_s q)) (t_step (scheme_of (ex_params ex_bounds) (mkLoads 0 0 0 0) G) (bodies (astride d v))) = [- (17/30) * v / (1 - 4 * d * d); - (17/30) * v / (1 - 4 * d * d)].
Proof.
  intros Hd HW. set (E := scheme_of _ _ _). set (B := bodies (astride d v)).
  assert (N1 : 1 - 2 * d <> 0) by lra. assert (N2 : 1 + 2 * d <> 0) by lra. assert (N3 : 1 - 4 * d * d <> 0) by nra.
  assert (HO : forall a k, e_open E a k = 1) by (intros; apply free_open, HW).
  assert (M : forall k, (k < 12)%nat -> t_mass E B k = nth k [1 - 2 * d; 1 + 2 * d; 0; 0; 1 - 2 * d; 1 + 2 * d; 0; 0; 0; 0; 0; 0] 0).
  { intros k Hk. unfold t_mass. cbn - [nth hat]. rewrite (hat_d (1/4 + d) k), (hat_d (3/4 + d) k) by (assumption || lra). do 12 (destruct k as [|k]; [cbn; unR; lra|]). lia. }
  assert (VX : forall k, (k < 12)%nat -> t_vel E B AX k = nth k [v / 2 / (1 - 2 * d); - v / 2 / (1 + 2 * d); 0; 0; v / 2 / (1 - 2 * d); - v / 2 / (1 + 2 * d); 0; 0; 0; 0; 0; 0] 0).
  { intros k Hk. unfold t_vel. rewrite (M k Hk), HO. change (e_tol E) with (1/1000). cbn - [nth hat]. rewrite (hat_d (1/4 + d) k), (hat_d (3/4 + d) k) by (assumption || lra). do 12 (destruct k as [|k]; [cbn; unR; destruct (Rlt_dec _ _); try lra; field; lra|]). lia. }
  assert (VO : forall a k, a <> AX -> (k < 12)%nat -> t_vel E B a k = 0).
  { intros a k Ha Hk. unfold t_vel. destruct (Rlt_dec _ _); [|reflexivity]. destruct a; [destruct (Ha eq_refl)| |]; cbn - [nth hat]; unR; unfold Rdiv; ring. }
  assert (XX : forall q, In q B -> fsum 12 (fun k => (t_vel E B AX k * ghat ex_gridp (q_x q) AX k + t_vel E B AX k * ghat ex_gridp (q_x q) AX k) / 2) = - v / (1 - 4 * d * d)).
  { intros q Hq. assert (Q : exists c, 0 <= c < 1 /\ q_x q = mkV3 c (1/2) 0) by (destruct Hq as [<-|[<-|[]]]; eexists; (split; [|reflexivity]); lra). destruct Q as (c & Hc & ->).
    rewrite (fsum_ext 12 _ (fun k => nth k [v / 2 / (1 - 2 * d); - v / 2 / (1 + 2 * d); 0; 0; v / 2 / (1 - 2 * d); - v / 2 / (1 + 2 * d); 0; 0; 0; 0; 0; 0] 0 * nth k [-1/2; 1/2; 0; 0; -1/2; 1/2; 0; 0; 0; 0; 0; 0] 0)); [cbn; field; repeat split; assumption|].
    intros k Hk. rewrite (VX k Hk), (gx_d c k Hc Hk). field; repeat split; assumption. }
  assert (Z : forall a q, a <> AX -> fsum 12 (fun k => (t_vel E B a k * ghat (e_P E) (q_x q) a k + t_vel E B a k * ghat (e_P E) (q_x q) a k) / 2) = 0).
  { intros a q Ha. rewrite (fsum_ext 12 _ (fun _ => 0)); [cbn; lra|]. intros k Hk. rewrite (VO a k Ha Hk). lra. }
  assert (D : forall q, In q B -> xx (t_strain E B q) = - (1/10) * v / (1 - 4 * d * d) /\ yy (t_strain E B q) = 0 /\ zz (t_strain E B q) = 0).
  { intros q Hq. unfold t_strain, m3. cbn [xx yy zz]. change (e_nodes E) with 12%nat. rewrite (Z AY q), (Z AZ q) by discriminate. change (e_P E) with (ex_gridp (T := R)). rewrite (XX q Hq). change (e_dt E) with (1/10). repeat split; field; assumption. }
  unfold t_step. rewrite !map_map. transitivity (map (fun q => xx (t_stress E q (t_strain E B q))) B); [reflexivity|].
  transitivity (map (fun _ : mp => - (17/30) * v / (1 - 4 * d * d)) B); [|reflexivity]. apply map_ext_in. intros q Hq. destruct (D q Hq) as (D1 & D2 & D3).
  assert (Q : q_s q = m0 /\ q_mat q = Solid 3 2) by (destruct Hq as [<-|[<-|[]]]; split; reflexivity). destruct Q as [Q1 Q2].
  replace (- (17/30) * v / (1 - 4 * d * d)) with (- (17/30) * (v / (1 - 4 * d * d))) by (field; assumption). replace (- (1/10) * v / (1 - 4 * d * d)) with (- (1/10) * (v / (1 - 4 * d * d))) in D1 by (field; assumption).
  set (e := v / (1 - 4 * d * d)) in *. clearbody e.
  unfold t_stress, t_material, over, m3, tr3. rewrite Q1, Q2. cbn [xx el delta]. rewrite D1, D2, D3. cbn. unR. lra.
Qed.
(** Two elastic points that approach each other in one cell, set down a part [d] of a cell
    further on: all stresses that they get in a step are [1 / (1 - 4 d^2)] times as large. *)
Lemma p_C144_between_refuted : forall fill d v, 0 < d < 1/4 -> v <> 0 -> exists (s t s' t' : state R) tr tr', plain s /\ plain t /\ sP t = sP s /\ sG t = sG s /\ wall_free (bv (sG s)) (bh (sG s)) /\
  Forall (fun q => in_dom (pG (sP s)) (q_x q)) (bodies (sL s)) /\ Forall (fun q => in_dom (pG (sP t)) (q_x q)) (bodies (sL t)) /\
  bodies (sL t) = map (slid d) (bodies (sL s)) /\ after calm fill 1 s [] = Ok (s', tr) /\ after calm fill 1 t [] = Ok (t', tr') /\
  map (fun q => xx (q_s q)) (bodies (sL t')) = map (fun q => xx (q_s q) / (1 - 4 * d * d)) (bodies (sL s')) /\
  map (fun q => xx (q_s q)) (bodies (sL t')) <> map (fun q => xx (q_s q)) (bodies (sL s')).
Proof.
  intros fill d v Hd Hv. destruct (grid_init_ok ex_gridp ex_bounds ex_proper) as (G & EG & OK). pose proof (no_walls G EG OK) as HW.
  assert (R1 : forall w, 0 <= w < 1/4 -> exists s' tr, after calm fill 1 (pair_state G (astride w v)) [] = Ok (s', tr) /\ map (fun q => xx (q_s q)) (bodies (sL s')) = [- (17/30) * v / (1 - 4 * w * w); - (17/30) * v / (1 - 4 * w * w)]).
  { intros w Hw. destruct (p_C84_run calm fill 1 (pair_state G (astride w v)) [] (astride_plain G w v OK)) as (s' & tr & E & _ & EB); [intros P; split; discriminate|intros [|j] Hj; [exact (astride_inside w v Hw)|lia]|].
    exists s', tr. split; [exact E|]. rewrite EB. exact (astride_squeezed G w v Hw HW). }
  destruct (R1 0) as (s' & tr & E1 & B1); [lra|]. destruct (R1 d) as (t' & tr' & E2 & B2); [lra|].
  assert (N3 : 0 < 1 - 4 * d * d < 1) by nra.
  exists (pair_state G (astride 0 v)), (pair_state G (astride d v)), s', t', tr, tr'. split; [apply astride_plain, OK|]. split; [apply astride_plain, OK|]. split; [reflexivity|]. split; [reflexivity|]. split; [exact HW|].
  split; [eapply Forall_impl; [|exact (astride_inside 0 v ltac:(lra))]; intros q H; exact (proj1 H)|]. split; [eapply Forall_impl; [|exact (astride_inside d v ltac:(lra))]; intros q H; exact (proj1 H)|].
  split; [cbn; unfold slid, mp_of; cbn; repeat (f_equal; try (unR; ring))|]. split; [exact E1|]. split; [exact E2|]. rewrite B2. split.
  - rewrite <- (map_map (fun q => xx (q_s q)) (fun a => a / (1 - 4 * d * d))), B1. cbn [map]. f_equal; [|f_equal]; field; lra.
  - rewrite B1. intros K. injection K as K _. replace (- (17/30) * v / (1 - 4 * 0 * 0)) with (- (17/30) * v) in K by field.
    assert (K' : - (17/30) * v = - (17/30) * v * (1 - 4 * d * d)) by (rewrite <- K at 2; field; lra). assert (v * (4 * d * d) = 0) by lra. apply Rmult_integral in H. destruct H as [H|H]; [exact (Hv H)|nra].
Qed.
(** Two points that approach each other, and the same two points one cell to the right. *)
Example x_C144_cells : exists i j (s t : state R), plain s /\ plain t /\ sP t = sP s /\ sG t = sG s /\
  wall_free (bv (sG s)) (bh (sG s)) /\ (forall P, no_surface (sP s) (calm P)) /\
  bodies (sL t) = map (carried (pG (sP s)) i j) (bodies (sL s)) /\
  (forall k, (k < 1)%nat -> Forall (fun q => in_dom (pG (sP s)) (q_x q) /\ in_dom (pG (sP s)) (by_cells (pG (sP s)) i j (q_x q)) /\ (p_check (sP s) = true -> vz (q_x q) = 0))
    (t_run calm k (sP s) (sG s) (bodies (sL s)))) /\ (i <> 0)%Z /\ length (bodies (sL s)) = 2%nat.
Proof.
  destruct (grid_init_ok ex_gridp ex_bounds ex_proper) as (G & EG & OK). pose proof (no_walls G EG OK) as HW.
  exists 1%Z, 0%Z, (pair_state G (astride 0 1)), (pair_state G (astride 1 1)). split; [apply astride_plain, OK|]. split; [apply astride_plain, OK|]. split; [reflexivity|]. split; [reflexivity|]. split; [exact HW|].
  split; [intros P; split; discriminate|]. change (pG (sP (pair_state G (astride 0 1)))) with (ex_gridp (T := R)).
  split; [|split; [|split; [discriminate|reflexivity]]].
  - cbn; unfold carried, by_cells, mp_of. rewrite (proj1 unit_cells), (proj2 unit_cells). cbn. repeat (f_equal; try (unR; ring)).
  - intros [|k] Hk; [|lia]. cbn [t_run]. apply Forall_forall. unfold by_cells. rewrite (proj1 unit_cells), (proj2 unit_cells). intros q [<-|[<-|[]]]; unfold in_dom; cbn; unR; repeat split; lra.
Qed.
(** Two points at rest, and an observer who moves by one cell per step, for two steps. *)
Example x_C143_run : exists (V : V3 R) i j (s t : state R), plain s /\ plain t /\ sP t = sP s /\ sG t = sG s /\
  wall_free (bv (sG s)) (bh (sG s)) /\ 0 <= p_Mtol (sP s) /\ (forall P, no_surface (sP s) (calm P)) /\
  p_dt (sP s) * vx V = IZR i * cell_w (pG (sP s)) /\ p_dt (sP s) * vy V = IZR j * cell_h (pG (sP s)) /\ vz V = 0 /\
  bodies (sL t) = map (seen_from V 0) (bodies (sL s)) /\
  (forall k, (k < 2)%nat -> let B := t_run calm k (sP s) (sG s) (bodies (sL s)) in all_heavy (scheme_at calm k (sP s) (sG s)) B /\
    Forall (fun q => in_dom (pG (sP s)) (q_x q) /\ in_dom (pG (sP s)) (add3 (q_x q) (INR k * p_dt (sP s)) V) /\ (p_check (sP s) = true -> vz (q_x q) = 0)) B) /\
  (i <> 0)%Z /\ length (bodies (sL s)) = 2%nat.
Proof.
  destruct (grid_init_ok ex_gridp ex_bounds ex_proper) as (G & EG & OK). pose proof (no_walls G EG OK) as HW.
  assert (PL : forall v w, plain (pair_state G (duet v w))).
  { intros v w. constructor; try assumption; try reflexivity; try (cbn; lra).
    - exact ex_proper.
    - intros ph [<-|[]]. reflexivity.
    - intros ph [<-|[]]. left. reflexivity.
    - eexists. split; [reflexivity|]. intros ph [<-|[]]. unfold equipped, has. cbn. split; discriminate.
    - intros ph p [<-|[]] [<-|[<-|[]]]; eexists; reflexivity.
    - repeat split; reflexivity.
    - left; reflexivity. }
  exists (mkV3 10 0 0), 1%Z, 0%Z, (pair_state G (duet 0 0)), (pair_state G (duet 10 10)).
  split; [apply PL|]. split; [apply PL|]. split; [reflexivity|]. split; [reflexivity|]. split; [exact HW|]. split; [cbn; unfold lit; unR; lra|]. split; [intros P; split; discriminate|].
  change (pG (sP (pair_state G (duet 0 0)))) with (ex_gridp (T := R)). change (p_dt (sP (pair_state G (duet 0 0)))) with (1/10). rewrite (proj1 unit_cells), (proj2 unit_cells).
  split; [cbn; lra|]. split; [cbn; lra|]. split; [reflexivity|].
  split; [cbn; unfold seen_from, add3, v3, mp_of; cbn; repeat (f_equal; try (unR; lra))|]. split; [|split; [discriminate|reflexivity]].
  intros n Hn B. assert (EB : B = bodies (sL (pair_state G (duet 0 0)))).
  { apply silent_run; [reflexivity| |].
    - intros a k. destruct a; cbn - [hat]; unR; ring.
    - intros q [<-|[<-|[]]]; repeat split; reflexivity. }
  rewrite EB. split.
  - intros q k Hq Hk HN. set (E := scheme_at _ _ _ _) in *. destruct (clock_grid calm n (sP (pair_state G (duet 0 0)))) as (E1 & E2 & E3 & E4 & E5 & E6). 
    assert (EP : e_P E = ex_gridp (T := R)) by exact E1. assert (ET : e_tol E = 1/1000) by (transitivity (p_Mtol (sP (pair_state G (duet 0 0)))); [unfold E, scheme_at, scheme_of; cbn [e_tol]; congruence|reflexivity]).
    unfold e_nodes in Hk. rewrite EP in Hk, HN. change (nx (ex_gridp (T := R)) * ny (ex_gridp (T := R)))%nat with 12%nat in Hk. rewrite ET.
    assert (M : t_mass E (bodies (sL (pair_state G (duet 0 0)))) k = nth k [1; 1; 0; 0; 1; 1; 0; 0; 0; 0; 0; 0] 0).
    { unfold t_mass. rewrite EP. cbn - [nth hat]. rewrite (hatL k Hk), (hat2 k Hk). do 12 (destruct k as [|k]; [cbn; unR; lra|]). lia. }
    rewrite M. clear M EP ET E1 E2 E3 E4 E5 E6 EB B. clearbody E. destruct Hq as [<-|[<-|[]]]; cbn [mp_of q_x px ex_particle] in HN.
    + change (mkV3 (1/4) (1/2) n0) with (mkV3 (1/4) (1/2) 0) in HN. destruct HN as [HN|[[] HN]]; [rewrite (hatL k Hk) in HN|rewrite (gxL k Hk) in HN|rewrite (gyL k Hk) in HN|destruct HN; reflexivity];
        do 12 (destruct k as [|k]; [cbn in *; lra|]); lia.
    + change (mkV3 (3/4) (1/2) n0) with (mkV3 (3/4) (1/2) 0) in HN. destruct HN as [HN|[[] HN]]; [rewrite (hat2 k Hk) in HN|rewrite (gxR k Hk) in HN|rewrite (gyR k Hk) in HN|destruct HN; reflexivity];
        do 12 (destruct k as [|k]; [cbn in *; lra|]); lia.
  - apply Forall_forall. destruct n as [|[|n]]; [| |lia]; intros q [<-|[<-|[]]]; unfold in_dom, add3, v3; cbn; unR; repeat split; lra.
Qed.
