(** * Runs with cyclic boundaries do not depend on where the cylinder is cut: C93. *)
From Coq Require Import ZArith Reals List Bool Arith Lra Lia.
From Verif Require Import State NumR Spec SpecLaws SpecStep SpecScheme SpecRing LibList LibR ModelGrid ModelConstit ModelParticle ModelMPList
  ModelIntegr ModelMain ProofsGrid ProofsMap ProofsP2G ProofsWalls ProofsLaws ProofsInOut ProofsHist Concrete
  ThmMapping ThmWalls ThmLaws ThmInOut ThmHist ProofsStep ProofsPoints ThmStep ThmBalance ThmEnergy ThmFall ThmGeo ProofsScheme ThmScheme
  ThmView ProofsRing ThmRing ThmSpin.
Import ListNotations.
Local Open Scope R_scope.

(** ** C93 *)
(** A position carried [c] cells to the right, around the cylinder. *)
Definition turned (P : gridp R) (c : nat) (x : V3 R) : V3 R :=
  let t := vx x + INR c * cell_w P in
  mkV3 (if Rlt_dec t (x_M P) then t else t - girth P) (vy x) (vz x).
(** A point carried along. *)
Definition turn (P : gridp R) (c : nat) (q : mp) : mp :=
  mkMp (q_mat q) (q_m q) (q_V q) (turned P c (q_x q)) (q_v q) (q_s q) (q_p q) (q_b q) (q_first q).
(** Walls are the same in all columns. *)
Definition level (P : gridp R) (G : grid R) : Prop := forall i j, (i < nx P)%nat -> (j < ny P)%nat ->
  nth (j * nx P + i) (bv G) false = nth (j * nx P) (bv G) false /\
  nth (j * nx P + i) (bh G) false = nth (j * nx P) (bh G) false.

Section Turn.
  Context (E : scheme) (c : nat).
  Let P := e_P E.
  Let m := (nx P - 1)%nat.
  Context (HP : proper P) (Hc : (c <= m)%nat)
    (HO : forall a i i' j, (i < m)%nat -> (i' < m)%nat -> (j < ny P)%nat -> r_open E a i j = r_open E a i' j).

  Let Hm : (1 <= m)%nat. Proof. unfold m. destruct HP. lia. Qed.
  Let Hw : 0 < cell_w P. Proof. apply cell_w_pos. exact HP. Qed.
  Let HW : girth P = INR m * cell_w P.
  Proof. rewrite girth_w by exact HP. unfold m. rewrite minus_INR by (destruct HP; lia). reflexivity. Qed.
  (** The column that lands in column [i]. *)
  Definition from (i : nat) : nat := if Nat.leb c i then (i - c)%nat else (i + m - c)%nat.
  Lemma from_lt i : (i < m)%nat -> (from i < m)%nat.
  Proof. intros H. unfold from. destruct (Nat.leb_spec c i); lia. Qed.
  Lemma from_inj i k : (i < m)%nat -> (k < m)%nat -> from i = from k -> i = k.
  Proof. intros H1 H2. unfold from. destruct (Nat.leb_spec c i), (Nat.leb_spec c k); lia. Qed.
  Lemma from_x i : (i < m)%nat -> r_x P (from i) = r_x P i - INR c * cell_w P + (if Nat.leb c i then 0 else girth P).
  Proof.
    intros H. unfold from, r_x. rewrite HW. destruct (Nat.leb_spec c i).
    - rewrite minus_INR by lia. ring.
    - rewrite minus_INR, plus_INR by lia. ring.
  Qed.
  Lemma girth_pos : cell_w P <= girth P.
  Proof. rewrite HW. assert (1 <= INR m) by (change 1 with (INR 1); apply le_INR; exact Hm). assert (1 * cell_w P <= INR m * cell_w P) by (apply Rmult_le_compat_r; lra). lra. Qed.
  Lemma turned_dom x : in_dom P x -> in_dom P (turned P c x).
  Proof.
    intros [HX HY]. split; [|exact HY]. unfold turned. cbn [vx].
    assert (0 <= INR c * cell_w P <= girth P).
    { rewrite HW. split; [apply Rmult_le_pos; [apply pos_INR|lra]|]. apply Rmult_le_compat_r; [lra|apply le_INR; exact Hc]. }
    unfold girth in *. destruct (Rlt_dec _ _); lra.
  Qed.
  Lemma dist_range x i : x_m P <= x < x_M P -> (i < m)%nat -> - (girth P - cell_w P) <= x - r_x P i < girth P.
  Proof.
    intros HX Hi. unfold r_x.
    assert (0 <= INR i * cell_w P <= girth P - cell_w P).
    { rewrite HW. split; [apply Rmult_le_pos; [apply pos_INR|lra]|]. replace (INR m * cell_w P - cell_w P) with ((INR m - 1) * cell_w P) by ring.
      apply Rmult_le_compat_r; [lra|]. replace 1 with (INR 1) by reflexivity. rewrite <- minus_INR by lia. apply le_INR. lia. }
    unfold girth in *. lra.
  Qed.
  Lemma around_turn f x i : (forall d, d < - cell_w P \/ cell_w P <= d -> f d = 0) -> in_dom P x -> (i < m)%nat ->
    around (girth P) f (vx (turned P c x) - r_x P i) = around (girth P) f (vx x - r_x P (from i)).
  Proof.
    intros Hf HD Hi. pose proof (turned_dom x HD) as [HT _]. destruct HD as [HX _].
    pose proof (dist_range _ i HT Hi) as T1. pose proof (dist_range _ (from i) HX (from_lt i Hi)) as T2.
    pose proof girth_pos as HG. rewrite (from_x i Hi) in *. unfold turned in *. cbn [vx] in *. unfold around.
    set (W := girth P) in *. set (w := cell_w P) in *. set (cw := INR c * w) in *. set (xi := r_x P i) in *.
    destruct (Rlt_dec (vx x + cw) (x_M P)); destruct (Nat.leb c i).
    - do 3 f_equal; ring.
    - replace (vx x - (xi - cw + W)) with (vx x + cw - xi - W) in * by ring.
      rewrite (Hf (vx x + cw - xi + W)) by lra. rewrite (Hf (vx x + cw - xi - W - W)) by lra.
      replace (vx x + cw - xi - W + W) with (vx x + cw - xi) by ring. ring.
    - replace (vx x - (xi - cw + 0)) with (vx x + cw - W - xi + W) in * by ring.
      rewrite (Hf (vx x + cw - W - xi - W)) by lra. rewrite (Hf (vx x + cw - W - xi + W + W)) by lra.
      replace (vx x + cw - W - xi + W - W) with (vx x + cw - W - xi) by ring. ring.
    - replace (vx x - (xi - cw + W)) with (vx x + cw - W - xi) by ring. reflexivity.
  Qed.
  Lemma rhat_turn x i j : in_dom P x -> (i < m)%nat -> rhat P (turned P c x) i j = rhat P x (from i) j.
  Proof. intros HD Hi. unfold rhat. rewrite (around_turn (fun d => tent (d / cell_w P))); auto using tent_off. Qed.
  Lemma rghat_turn x a i j : in_dom P x -> (i < m)%nat -> rghat P (turned P c x) a i j = rghat P x a (from i) j.
  Proof.
    intros HD Hi. unfold rghat. destruct a; [| |reflexivity].
    - rewrite (around_turn (fun d => slope (d / cell_w P) / cell_w P)); auto using slope_off.
    - rewrite (around_turn (fun d => tent (d / cell_w P))); auto using tent_off.
  Qed.
  Lemma rsum_turn f : rsum E (fun i j => f (from i) j) = rsum E f.
  Proof.
    unfold rsum. fold P. apply fsum_ext. intros j Hj. symmetry. apply (fsum_renumber (nx P - 1) (fun i => f i j) from).
    - exact from_lt.
    - exact from_inj.
  Qed.
  Lemma rsum_ext f g : (forall i j, (i < m)%nat -> (j < ny P)%nat -> f i j = g i j) -> rsum E f = rsum E g.
  Proof. intros H. unfold rsum. apply fsum_ext. intros j Hj. apply fsum_ext. intros i Hi. apply H; assumption. Qed.

  Context (B : list mp) (HB : Forall (fun q => in_dom P (q_x q)) B).
  Let HB' : forall q, In q B -> in_dom P (q_x q). Proof. apply Forall_forall. exact HB. Qed.
  Lemma mass_turn i j : (i < m)%nat -> r_mass E (map (turn P c) B) i j = r_mass E B (from i) j.
  Proof.
    intros Hi. unfold r_mass. fold P. rewrite map_map. apply Rsum_ext. intros q A. cbn [turn q_m q_x].
    rewrite rhat_turn by auto. reflexivity.
  Qed.
  Lemma vel_turn a i j : (i < m)%nat -> (j < ny P)%nat -> r_vel E (map (turn P c) B) a i j = r_vel E B a (from i) j.
  Proof.
    intros Hi Hj. unfold r_vel. rewrite mass_turn by exact Hi. rewrite (HO a i (from i) j Hi (from_lt i Hi) Hj).
    destruct (Rlt_dec _ _); [|reflexivity]. do 2 f_equal. fold P. rewrite map_map. apply Rsum_ext. intros q A. cbn [turn q_m q_x q_v].
    rewrite rhat_turn by auto. reflexivity.
  Qed.
  Lemma strain_turn q : in_dom P (q_x q) -> r_strain E (map (turn P c) B) (turn P c q) = r_strain E B q.
  Proof.
    intros HD. apply m3_ext. intros a b. unfold r_strain. rewrite !el_m3. f_equal.
    rewrite <- (rsum_turn (fun i j => (r_vel E B a i j * rghat (e_P E) (q_x q) b i j + r_vel E B b i j * rghat (e_P E) (q_x q) a i j) / 2)).
    apply rsum_ext. intros i j Hi Hj. fold P. cbn [turn q_x]. rewrite !vel_turn, !rghat_turn by auto. reflexivity.
  Qed.
  Lemma strained_turn q : in_dom P (q_x q) -> r_strained E (map (turn P c) B) (turn P c q) = turn P c (r_strained E B q).
  Proof. intros HD. unfold r_strained. rewrite strain_turn by exact HD. reflexivity. Qed.
  Let B1 := map (r_strained E B) B.
  Lemma all_strained_turn : map (r_strained E (map (turn P c) B)) (map (turn P c) B) = map (turn P c) B1.
  Proof. unfold B1. rewrite !map_map. apply map_ext_in. intros q A. apply strained_turn. auto. Qed.
  Lemma force_turn a i j : (i < m)%nat -> r_force E (map (turn P c) B1) a i j = r_force E B1 a (from i) j.
  Proof.
    intros Hi. unfold r_force. fold P. rewrite map_map. apply Rsum_ext. intros q A. cbn [turn q_m q_x q_b q_V q_s].
    assert (HD : in_dom P (q_x q)) by (apply in_map_iff in A; destruct A as (q0 & <- & A); cbn; auto).
    unfold over. rewrite rhat_turn, !rghat_turn by auto. reflexivity.
  Qed.
  Lemma acc_turn a i j : (i < m)%nat -> (j < ny P)%nat ->
    r_acc E (map (turn P c) B) (map (turn P c) B1) a i j = r_acc E B B1 a (from i) j.
  Proof.
    intros Hi Hj. unfold r_acc. rewrite mass_turn by exact Hi. rewrite (HO a i (from i) j Hi (from_lt i Hi) Hj), force_turn by exact Hi. reflexivity.
  Qed.
  (** Two positions in the domain that differ by whole turns are the same. *)
  Lemma turn_back x u : in_dom P (mkV3 (vx (back E (mkV3 (vx x + vx u) (vy u) (vz u)))) (vy u) (vz u)) ->
    in_dom P (mkV3 (vx (back E (mkV3 (vx (turned P c x) + vx u) (vy u) (vz u)))) (vy u) (vz u)) ->
    back E (mkV3 (vx (turned P c x) + vx u) (vy u) (vz u)) = turned P c (back E (mkV3 (vx x + vx u) (vy u) (vz u))).
  Proof.
    intros [D1 _] [D2 _]. unfold back in *. fold P in D1, D2 |- *. unfold turned in *. cbn [vx vy vz] in *.
    assert (R0 : 0 <= INR c * cell_w P <= girth P).
    { rewrite HW. split; [apply Rmult_le_pos; [apply pos_INR|lra]|]. apply Rmult_le_compat_r; [lra|apply le_INR; exact Hc]. }
    assert (XM : x_M P = x_m P + girth P) by (unfold girth; lra). pose proof girth_pos.
    set (W := girth P) in *. set (cw := INR c * cell_w P) in *. clearbody W cw.
    repeat match goal with
    | |- context [Rlt_dec ?a ?b] => destruct (Rlt_dec a b)
    | H : context [Rlt_dec ?a ?b] |- _ => destruct (Rlt_dec a b)
    end; cbn [vx vy vz] in *; f_equal; lra.
  Qed.
End Turn.

Lemma r_step_turn (E : scheme) c B : proper (e_P E) -> (c <= nx (e_P E) - 1)%nat ->
  (forall a i i' j, (i < nx (e_P E) - 1)%nat -> (i' < nx (e_P E) - 1)%nat -> (j < ny (e_P E))%nat -> r_open E a i j = r_open E a i' j) ->
  Forall (fun q => in_dom (e_P E) (q_x q)) B ->
  Forall (fun q => in_dom (e_P E) (q_x q)) (r_step E B) ->
  Forall (fun q => in_dom (e_P E) (q_x q)) (r_step E (map (turn (e_P E) c) B)) ->
  r_step E (map (turn (e_P E) c) B) = map (turn (e_P E) c) (r_step E B).
Proof.
  intros HP Hc HO HB H1 H2. unfold r_step in *. rewrite (all_strained_turn E c HP Hc HO B HB) in *.
  set (B1 := map (r_strained E B) B) in *. set (tB1 := map (turn (e_P E) c) B1) in *. set (tB := map (turn (e_P E) c) B) in *.
  assert (X1 : forall (F : mp -> mp), map F B1 = map (fun q => F (r_strained E B q)) B) by (intros; unfold B1; apply map_map).
  assert (X2 : forall (F : mp -> mp), map F tB1 = map (fun q => F (turn (e_P E) c (r_strained E B q))) B) by (intros; unfold tB1; rewrite map_map; apply X1).
  rewrite X1, X2 in *. rewrite map_map. rewrite Forall_forall in H1, H2.
  apply map_ext_in. intros q A.
  assert (HD : in_dom (e_P E) (q_x q)) by (rewrite Forall_forall in HB; auto).
  specialize (H1 _ (in_map _ _ _ A)). specialize (H2 _ (in_map _ _ _ A)). cbv beta in H1, H2.
  assert (GA : forall g g', (forall i j, (i < nx (e_P E) - 1)%nat -> (j < ny (e_P E))%nat -> g' i j = g (from E c i) j) ->
    rsum E (fun i j => rhat (e_P E) (turned (e_P E) c (q_x q)) i j * g' i j) = rsum E (fun i j => rhat (e_P E) (q_x q) i j * g i j)).
  { intros g g' X. rewrite <- (rsum_turn E c HP Hc (fun i j => rhat (e_P E) (q_x q) i j * g i j)). apply rsum_ext. intros i j Hi Hj.
    rewrite (rhat_turn E c HP Hc _ _ _ HD Hi), X by assumption. reflexivity. }
  set (q1 := r_strained E B q) in *.
  set (u := v3 (fun a => e_dt E * rsum E (fun i j => rhat (e_P E) (q_x q) i j * (r_vel E B a i j + e_dt E * r_acc E B B1 a i j)))).
  assert (M1 : r_moved E B B1 q1 = mkMp (q_mat q) (q_m q) (q_V q) (back E (mkV3 (vx (q_x q) + vx u) (vy (q_x q) + vy u) (vz (q_x q) + vz u)))
    (v3 (fun a => comp a (q_v q) + e_dt E * rsum E (fun i j => rhat (e_P E) (q_x q) i j * r_acc E B B1 a i j))) (q_s q1) (q_p q1) (q_b q1) (q_first q1)) by reflexivity.
  assert (M2 : r_moved E (map (turn (e_P E) c) B) (map (turn (e_P E) c) B1) (turn (e_P E) c q1) =
    mkMp (q_mat q) (q_m q) (q_V q) (back E (mkV3 (vx (turned (e_P E) c (q_x q)) + vx u) (vy (q_x q) + vy u) (vz (q_x q) + vz u)))
    (v3 (fun a => comp a (q_v q) + e_dt E * rsum E (fun i j => rhat (e_P E) (q_x q) i j * r_acc E B B1 a i j))) (q_s q1) (q_p q1) (q_b q1) (q_first q1)).
  { unfold r_moved. cbn [turn q_mat q_m q_V q_x q_v q_s q_p q_b q_first]. change (q_x q1) with (q_x q). change (q_v q1) with (q_v q).
    assert (GV : forall a, rsum E (fun i j => rhat (e_P E) (turned (e_P E) c (q_x q)) i j * (r_vel E (map (turn (e_P E) c) B) a i j + e_dt E * r_acc E (map (turn (e_P E) c) B) (map (turn (e_P E) c) B1) a i j))
      = rsum E (fun i j => rhat (e_P E) (q_x q) i j * (r_vel E B a i j + e_dt E * r_acc E B B1 a i j))).
    { intros a. apply GA. intros i j Hi Hj. rewrite (vel_turn E c HP Hc HO B HB), (acc_turn E c HP Hc HO B HB) by assumption. reflexivity. }
    assert (GC : forall a, rsum E (fun i j => rhat (e_P E) (turned (e_P E) c (q_x q)) i j * r_acc E (map (turn (e_P E) c) B) (map (turn (e_P E) c) B1) a i j)
      = rsum E (fun i j => rhat (e_P E) (q_x q) i j * r_acc E B B1 a i j)).
    { intros a. apply GA. intros i j Hi Hj. rewrite (acc_turn E c HP Hc HO B HB) by assumption. reflexivity. }
    unfold v3. rewrite !GV, !GC. reflexivity. }
  fold tB tB1 in M2. rewrite M1 in H1 |- *. rewrite M2 in H2 |- *. unfold turn at 1. cbn [q_mat q_m q_V q_x q_v q_s q_p q_b q_first] in *. f_equal.
  apply (turn_back E c HP Hc (q_x q) (mkV3 (vx u) (vy (q_x q) + vy u) (vz (q_x q) + vz u))); cbn [vx vy vz].
  - destruct H1 as [X Y]. split; [exact X|]. cbn [vy]. clear - Y. unfold back in Y.
    destruct (Rlt_dec _ _); [exact Y|]. destruct (Rlt_dec _ _); exact Y.
  - destruct H2 as [X Y]. split; [exact X|]. cbn [vy]. clear - Y. unfold back in Y.
    destruct (Rlt_dec _ _); [exact Y|]. destruct (Rlt_dec _ _); exact Y.
Qed.

Lemma bodies_dom P L (Q : all_live L (fun _ p => in_dom P (px p))) : forall k, Forall (fun q => in_dom P (q_x q)) (bodies_from k L).
Proof.
  induction L as [|ph L IH]; intros k; [constructor|]. cbn [bodies_from]. apply Forall_app. split.
  - apply Forall_forall. intros q A. apply in_map_iff in A. destruct A as (p & <- & A). apply (Q ph p (or_introl eq_refl) A).
  - apply IH. intros ph0 p0 C. apply Q. right. exact C.
Qed.
Lemma level_ends P (G : grid R) : proper P -> level P G -> ends_agree P G.
Proof. intros (Hn & _) HL j Hj. destruct (HL (nx P - 1)%nat j) as [A B]; [lia|exact Hj|]. rewrite A, B. split; reflexivity. Qed.
Lemma level_open P (G : grid R) l : level (pG P) G -> forall a i i' j, (i < nx (pG P) - 1)%nat -> (i' < nx (pG P) - 1)%nat -> (j < ny (pG P))%nat ->
  r_open (scheme_of P l G) a i j = r_open (scheme_of P l G) a i' j.
Proof.
  intros HL a i i' j Hi Hi' Hj. unfold r_open. cbn [scheme_of e_open e_P]. unfold passes.
  destruct (HL i j) as [A B]; [lia|exact Hj|]. destruct (HL i' j) as [A' B']; [lia|exact Hj|]. rewrite A, B, A', B'. reflexivity.
Qed.

(** Two runs with cyclic_lr that differ only in that all points of the second are carried [c] cells further around the
    cylinder differ only in that after any number of steps, as long as no point leaves the domain or stops exactly on its
    right end. *)
Lemma p_C93_turn : forall uf fill n c (s t s' t' : state R) tr tt tr' tt', rplain s -> rplain t -> sP t = sP s ->
  bv (sG t) = bv (sG s) -> bh (sG t) = bh (sG s) -> level (pG (sP s)) (sG s) -> (c <= nx (pG (sP s)) - 1)%nat ->
  (forall P, no_surface (sP s) (uf P)) ->
  bodies (sL t) = map (turn (pG (sP s)) c) (bodies (sL s)) ->
  (forall j s1 tr1, (j <= n)%nat -> after uf fill j s tr = Ok (s1, tr1) -> all_live (sL s1) (fun _ p => in_dom (pG (sP s)) (px p))) ->
  (forall j t1 tt1, (j <= n)%nat -> after uf fill j t tt = Ok (t1, tt1) -> all_live (sL t1) (fun _ p => in_dom (pG (sP s)) (px p))) ->
  after uf fill n s tr = Ok (s', tr') -> after uf fill n t tt = Ok (t', tt') ->
  sP t' = sP s' /\ bodies (sL t') = map (turn (pG (sP s)) c) (bodies (sL s')).
Proof.
  intros uf fill n. induction n as [|n IH]; intros c s t s' t' tr tt tr' tt' HS HT EP MV MH HL Hc HN HB DS DT ES ET.
  - cbn [after] in ES, ET. injection ES as <- _. injection ET as <- _. split; assumption.
  - cbn [after] in ES, ET. destruct (pass uf fill s tr) as [[s1 tr1]|] eqn:PS; [|discriminate]. destruct (pass uf fill t tt) as [[t1 tt1]|] eqn:PT; [|discriminate].
    assert (D0 := DS 0%nat s tr (Nat.le_0_l _) eq_refl). assert (T0 := DT 0%nat t tt (Nat.le_0_l _) eq_refl).
    assert (D1 : all_live (sL s1) (fun _ p => in_dom (pG (sP s)) (px p))) by (apply (DS 1%nat s1 tr1); [lia|cbn [after]; rewrite PS; reflexivity]).
    assert (T1 : all_live (sL t1) (fun _ p => in_dom (pG (sP s)) (px p))) by (apply (DT 1%nat t1 tt1); [lia|cbn [after]; rewrite PT; reflexivity]).
    destruct (rplain_step uf fill s tr s1 tr1 HS D0 (HN _) PS) as (S1 & P1 & V1 & H1 & B1).
    rewrite <- EP in T0. assert (HNt : no_surface (sP t) (uf (sP t))) by (rewrite EP; apply HN).
    destruct (rplain_step uf fill t tt t1 tt1 HT T0 HNt PT) as (S2 & P2 & V2 & H2 & B2).
    assert (EP1 : sP t1 = sP s1) by (rewrite P1, P2, EP; reflexivity).
    assert (EG : pG (sP s1) = pG (sP s)) by (rewrite P1; reflexivity).
    rewrite <- EG in *.
    apply (IH c s1 t1 s' t' tr1 tt1 tr' tt'); auto.
    + congruence.
    + congruence.
    + intros i j Hi Hj. rewrite V1, H1. apply HL; assumption.
    + intros Q. rewrite P1. exact (HN Q).
    + rewrite B2, EP, HB, (scheme_masks (sP s) (uf (sP s)) (sG s) (sG t) MV MH), B1.
      assert (EE : e_P (scheme_of (sP s) (uf (sP s)) (sG s)) = pG (sP s1)) by (rewrite EG; reflexivity).
      rewrite <- EE. apply r_step_turn.
      * apply HS.
      * rewrite EE. exact Hc.
      * apply level_open. rewrite EG in HL. exact HL.
      * apply bodies_dom. rewrite EE. exact D0.
      * rewrite <- B1. apply bodies_dom. rewrite EE. exact D1.
      * rewrite EE. rewrite <- HB, <- (scheme_masks (sP s) (uf (sP s)) (sG s) (sG t) MV MH), <- EP, <- B2. apply bodies_dom. exact T1.
    + intros j s2 tr2 Hj X. apply (DS (Datatypes.S j) s2 tr2); [lia|]. cbn [after]. rewrite PS. exact X.
    + intros j t2 tt2 Hj X. apply (DT (Datatypes.S j) t2 tt2); [lia|]. cbn [after]. rewrite PT. exact X.
Qed.

Lemma sp_turn_dom G x x' fill : x = 59/20 /\ x' = 1/20 \/ x = 19/20 /\ x' = 21/20 -> grid_init (@ex_gridp R _) sp_bounds = Ok G -> grid_ok ex_gridp G ->
  exists s' tr', after sp_loads fill 1 (sp_state G x) [] = Ok (s', tr') /\
  forall j s1 tr1, (j <= 1)%nat -> after sp_loads fill j (sp_state G x) [] = Ok (s1, tr1) -> all_live (sL s1) (fun _ p => in_dom ex_gridp (px p)).
Proof.
  intros HX EG OK. pose proof (sp_rplain G x EG OK) as HR.
  assert (D0 : Forall (fun q => in_dom ex_gridp (q_x q)) (bodies (sp_L x))) by (destruct HX as [[-> _]|[-> _]]; repeat constructor; cbn; lra).
  assert (D1 : Forall (fun q => in_dom ex_gridp (q_x q)) (r_run sp_loads 1 (ex_params sp_bounds) G (bodies (sp_L x)))).
  { rewrite (sp_firstx G x x' HX EG). repeat constructor; cbn [q_x vx vy]; cbn; unR; destruct HX as [[_ ->]|[_ ->]]; lra. }
  assert (HI : forall n j, (n <= 1)%nat -> (j < n)%nat -> Forall (fun q => in_dom (pG (sP (sp_state G x))) (q_x q) /\ (p_check (sP (sp_state G x)) = true -> vz (q_x q) = 0))
    (r_run sp_loads j (sP (sp_state G x)) (sG (sp_state G x)) (bodies (sL (sp_state G x))))).
  { intros n j Hn Hj. assert (j = 0%nat) by lia. subst j. cbn [r_run]. eapply Forall_impl; [|exact D0]. intros q X. split; [exact X|discriminate]. }
  destruct (p_C91_run sp_loads fill 1 (sp_state G x) [] HR ltac:(split; reflexivity) ltac:(intros; apply (HI 1%nat); lia)) as (s' & tr' & A & _).
  exists s', tr'. split; [exact A|]. intros j s1 tr1 Hj EJ.
  destruct (p_C91_run sp_loads fill j (sp_state G x) [] HR ltac:(split; reflexivity) ltac:(intros; apply (HI j); lia)) as (s2 & tr2 & A2 & _ & B2).
  rewrite EJ in A2. injection A2 as <- <-. apply (bodies_live (sL s1) (fun x => in_dom ex_gridp x) 0). change (bodies_from 0 (sL s1)) with (bodies (sL s1)). rewrite B2.
  destruct j as [|[|j]]; [exact D0|exact D1|lia].
Qed.
(** One of the two runs crosses the seam, the other does not. *)
Example x_C93_turn : forall fill, exists (s t s' t' : state R) tr' tt', rplain s /\ rplain t /\ sP t = sP s /\
  bv (sG t) = bv (sG s) /\ bh (sG t) = bh (sG s) /\ level (pG (sP s)) (sG s) /\ (1 <= nx (pG (sP s)) - 1)%nat /\
  (forall P, no_surface (sP s) (sp_loads P)) /\
  bodies (sL t) = map (turn (pG (sP s)) 1) (bodies (sL s)) /\
  (forall j s1 tr1, (j <= 1)%nat -> after sp_loads fill j s [] = Ok (s1, tr1) -> all_live (sL s1) (fun _ p => in_dom (pG (sP s)) (px p))) /\
  (forall j t1 tt1, (j <= 1)%nat -> after sp_loads fill j t [] = Ok (t1, tt1) -> all_live (sL t1) (fun _ p => in_dom (pG (sP s)) (px p))) /\
  after sp_loads fill 1 s [] = Ok (s', tr') /\ after sp_loads fill 1 t [] = Ok (t', tt') /\ length (bodies (sL s)) = 1%nat.
Proof.
  intros fill. destruct (grid_init_ok ex_gridp sp_bounds ex_proper) as (G & EG & OK).
  destruct (sp_turn_dom G (59/20) (1/20) fill (or_introl (conj eq_refl eq_refl)) EG OK) as (s' & tr' & A & DA).
  destruct (sp_turn_dom G (19/20) (21/20) fill (or_intror (conj eq_refl eq_refl)) EG OK) as (t' & tt' & C & DC).
  exists (sp_state G (59/20)), (sp_state G (19/20)), s', t', tr', tt'.
  split; [apply sp_rplain; assumption|]. split; [apply sp_rplain; assumption|]. do 3 (split; [reflexivity|]).
  split. { intros i j Hi Hj. pose proof (sp_open G EG AX) as OX. pose proof (sp_open G EG AY) as OY.
    assert (X : forall k, (k < nx (@ex_gridp R _) * ny (@ex_gridp R _))%nat -> nth k (bv G) false = false /\ nth k (bh G) false = false).
    { intros k Hk. specialize (OX k Hk). specialize (OY k Hk). unfold passes in OX, OY. cbn in OX, OY.
      destruct (nth k (bv G) false), (nth k (bh G) false); cbn in OX, OY; try lra; auto. }
    cbn [sp_state sP sG ex_params pG] in *. destruct (X (j * nx (@ex_gridp R _) + i)%nat) as [-> ->]; [nia|]. destruct (X (j * nx (@ex_gridp R _))%nat) as [-> ->]; [nia|]. auto. }
  split; [cbn; lia|]. split; [split; reflexivity|].
  split. { assert (EX : turned (@ex_gridp R _) 1 (mkV3 (59/20) (1/2) 0) = mkV3 (19/20) (1/2) 0).
      { unfold turned. cbn [vx vy vz INR]. destruct ex_w as (-> & _ & ->). replace (x_M (@ex_gridp R _)) with 3 by (cbn; unR; lra).
        destruct (Rlt_dec _ _); [lra|]. f_equal. lra. }
      unfold bodies, bodies_from, sp_state, sL, sp_L, live. cbn [ph_n ph_pts firstn map app Nat.eqb]. unfold turn, mp_of. cbn [q_mat q_m q_V q_x q_v q_s q_p q_b q_first].
      f_equal. f_equal. symmetry. exact EX. }
  split; [exact DA|]. split; [exact DC|]. split; [exact A|]. split; [exact C|reflexivity].
Qed.
