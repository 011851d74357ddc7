(** * Mass, momentum and forces on the grid (C04-C07). *)
From Coq Require Import ZArith Reals List Bool Arith Lra Lia.
From Verif Require Import State NumR Spec LibList LibR ModelGrid ModelConstit ModelParticle ModelMPList
  ProofsGrid ProofsMap.
Import ListNotations.
Local Open Scope R_scope.

(** ** Success of the loops *)
Lemma each_total {S A} (f : A -> S -> res (A * S)) (I : S -> Prop) n :
  forall l s,
  (n <= length l)%nat -> I s ->
  (forall a s, In a (firstn n l) -> I s -> exists a' s', f a s = Ok (a', s') /\ I s') ->
  exists l' s', each n f l s = Ok (l', s') /\ I s'.
Proof.
  induction n; simpl; intros l s Hn I0 Hs.
  - eauto.
  - destruct l as [|a l]; simpl in Hn; [lia|].
    destruct (Hs a s) as (a' & s1 & -> & I1); [left; auto|auto|]. cbn [bind].
    destruct (IHn l s1) as (l' & s2 & -> & I2); [lia|auto|intros; apply Hs; auto; right; auto|].
    cbn [bind]. eauto.
Qed.
Lemma forM_total {S A} (f : nat -> A -> S -> res (A * S)) (I : S -> Prop) l :
  forall k s,
  I s ->
  (forall k a s, In a l -> I s -> exists a' s', f k a s = Ok (a', s') /\ I s') ->
  exists l' s', forM f k l s = Ok (l', s') /\ I s'.
Proof.
  induction l as [|a l IH]; simpl; intros k s I0 Hs; eauto.
  destruct (Hs k a s) as (a' & s1 & -> & I1); auto. cbn [bind].
  destruct (IH (Datatypes.S k) s1) as (l' & s2 & -> & I2); auto. cbn [bind]. eauto.
Qed.
(** Every phase stores at least as many points as its counter says. *)
Definition enough {T} (L : list (phase T)) : Prop :=
  forall ph, In ph L -> (ph_n ph <= length (ph_pts ph))%nat.

Lemma points_total {T S} (f : nat -> phase T -> particle T -> S -> res (particle T * S)) (I : S -> Prop) L s :
  enough L -> I s ->
  (forall k ph p s, In ph L -> In p (live ph) -> I s -> exists p' s', f k ph p s = Ok (p', s') /\ I s') ->
  exists L' s', points f L s = Ok (L', s') /\ I s'.
Proof.
  intros He I0 Hs. unfold points. apply forM_total; auto.
  intros k ph t Hin It.
  destruct (each_total (f k ph) I (ph_n ph) (ph_pts ph) t) as (l' & s2 & -> & I2);
    [auto|auto|intros; eapply Hs; eauto|].
  cbn [bind]. eauto.
Qed.
Lemma points__total {T} (f : nat -> phase T -> particle T -> res (particle T)) L :
  enough L ->
  (forall k ph p, In ph L -> In p (live ph) -> exists p', f k ph p = Ok p') ->
  exists L', points_ f L = Ok L'.
Proof.
  intros He Hs. unfold points_.
  destruct (points_total (fun k ph p (_ : unit) => p <- f k ph p ;; Ok (p, tt)) (fun _ => True) L tt)
    as (L' & s' & -> & _); auto.
  - intros k ph p t Hin Hp _. destruct (Hs k ph p Hin Hp) as [p' ->]. cbn [bind]. eauto.
  - cbn [bind]. eauto.
Qed.
Lemma points_r_total {T S} (f : nat -> phase T -> particle T -> S -> res S) (I : S -> Prop) L s :
  enough L -> I s ->
  (forall k ph p s, In ph L -> In p (live ph) -> I s -> exists s', f k ph p s = Ok s' /\ I s') ->
  exists s', points_r f L s = Ok s' /\ I s'.
Proof.
  intros He I0 Hs. unfold points_r.
  destruct (points_total (fun k ph p s => s <- f k ph p s ;; Ok (p, s)) I L s)
    as (L' & s' & -> & I'); auto.
  - intros k ph p t Hin Hp It. destruct (Hs k ph p t Hin Hp It) as (s1 & -> & I1). cbn [bind]. eauto.
  - cbn [bind]. eauto.
Qed.
Lemma Lrel_enough {T} (R1 : phase T -> particle T -> particle T -> Prop) L L' :
  Lrel R1 L L' -> enough L -> enough L'.
Proof.
  unfold enough. induction 1 as [|ph ph' L L' (E1 & E2 & E3 & F & Ln) HL IH]; simpl; intros He.
  - intros ? [].
  - intros ph1 [<-|Hin]; auto. rewrite E2, Ln. auto.
Qed.

(** ** Locating the points *)
Definition relocate (ph : phase R) (p p' : particle R) : Prop :=
  p' = p <| pnstar := pnstar p' |>.
Definition rebasis (ph : phase R) (p p' : particle R) : Prop :=
  p' = p <| pN := pN p' |> <| pGr := pGr p' |>.

Lemma ref_nodes_rel P G L L' : ref_nodes P G L = Ok L' -> Lrel relocate L L'.
Proof.
  intros H. eapply points__rel; [|exact H]. intros k ph p p' _ _ Hf. cbv beta in Hf.
  unfold get_reference_node in Hf. unR. inv Hf. unfold relocate. reflexivity.
Qed.
Lemma basis_rel G L L' : basis_all G L = Ok L' -> Lrel rebasis L L'.
Proof.
  intros H. eapply points__rel; [|exact H]. intros k ph p p' _ _ Hf. cbv beta in Hf.
  unfold get_basis_functions in Hf. pbinds Hf. destruct (shape _ _ _). inv Hf.
  unfold rebasis. reflexivity.
Qed.

(** Weights of every point with basis functions sum to one. *)
Lemma basis_unity G p p' : gdx G <> 0 -> gdy G <> 0 -> get_basis_functions G p = Ok p' ->
  fsum 4 (Nr p') = 1 /\ forall a, fsum 4 (fun r => comp a (Gr p' r)) = 0.
Proof.
  intros Hx Hy H. unfold get_basis_functions in H. pbinds H.
  remember (vsub (px p) (mkV3 a a0 n0)) as x.
  pose proof (shape_unity (gdx G) (gdy G) x Hx Hy) as U.
  pose proof (fun c => shape_grad_zero (gdx G) (gdy G) x c Hx Hy) as Z.
  unfold wN in U. unfold wG in Z. destruct (shape (gdx G) (gdy G) x) as [Nn Gg]. inv H.
  split; [exact U | exact Z].
Qed.
Lemma basis_all_unity G L L' : gdx G <> 0 -> gdy G <> 0 -> basis_all G L = Ok L' ->
  all_live L' (fun _ p => fsum 4 (Nr p) = 1 /\ forall a, fsum 4 (fun r => comp a (Gr p r)) = 0).
Proof.
  intros Hx Hy H.
  assert (HR : Lrel (fun _ _ p => fsum 4 (Nr p) = 1 /\ forall a, fsum 4 (fun r => comp a (Gr p r)) = 0) L L').
  { eapply points__rel; [|exact H]. intros k ph p p' _ _ Hf. cbv beta in Hf |- *. eapply basis_unity; eauto. }
  eapply (Lrel_all_live _ _ _ (fun _ _ => True)); [exact HR| |intros ? ? ? ?; exact I].
  intros ph p ph' p' _ _ _ _ _ HH _. exact HH.
Qed.

(** Points in the domain are located by the two loops. *)
Definition locate (Pg : gridp R) (p : particle R) : particle R :=
  p <| pnstar := Z.of_nat (cell_node Pg (px p)) |>
    <| pN := fst (shape (cell_w Pg) (cell_h Pg) (loc Pg (px p))) |>
    <| pGr := snd (shape (cell_w Pg) (cell_h Pg) (loc Pg (px p))) |>.

Lemma locate_located Pg p : in_dom Pg (px p) -> located Pg (locate Pg p).
Proof. intros H. repeat split; try exact H; apply H. Qed.

Lemma locate_loops P G L L1 L2 : proper (pG P) -> grid_ok (pG P) G ->
  all_live L (fun _ p => in_dom (pG P) (px p)) ->
  ref_nodes P G L = Ok L1 -> basis_all G L1 = Ok L2 ->
  Lrel (fun _ p p' => p' = locate (pG P) p) L L2.
Proof.
  intros HP HG HD H1 H2.
  assert (A : Lrel (fun _ p p' => p' = p <| pnstar := Z.of_nat (cell_node (pG P) (px p)) |>) L L1).
  { eapply points__rel; [|exact H1]. intros k ph p p' Hin Hp Hf. cbv beta in Hf.
    rewrite (ref_node_spec (pG P) HP G HG P p eq_refl (HD _ _ Hin Hp)) in Hf. inv Hf. reflexivity. }
  assert (D1 : all_live L1 (fun _ p => in_dom (pG P) (px p) /\ pnstar p = Z.of_nat (cell_node (pG P) (px p)))).
  { eapply Lrel_all_live; [exact A| |exact HD]. cbv beta. intros ph p ph' p' _ _ _ _ _ -> HI. cbn. auto. }
  assert (B : Lrel (fun _ p p' => p' = p <| pN := fst (shape (cell_w (pG P)) (cell_h (pG P)) (loc (pG P) (px p))) |>
          <| pGr := snd (shape (cell_w (pG P)) (cell_h (pG P)) (loc (pG P) (px p))) |>) L1 L2).
  { eapply points__rel; [|exact H2]. intros k ph p p' Hin Hp Hf. cbv beta in Hf.
    destruct (D1 _ _ Hin Hp) as [I1 I2].
    rewrite (basis_spec (pG P) HP G HG p I1 I2) in Hf. inv Hf. reflexivity. }
  eapply Lrel_trans; [exact A|exact B|]. cbv beta.
  intros ph ph' p p' p'' _ _ _ _ -> ->. unfold locate. reflexivity.
Qed.

Lemma locate_total P G L : proper (pG P) -> grid_ok (pG P) G -> enough L ->
  all_live L (fun _ p => in_dom (pG P) (px p)) ->
  exists L1 L2, ref_nodes P G L = Ok L1 /\ basis_all G L1 = Ok L2.
Proof.
  intros HP HG He HD.
  destruct (points__total (fun _ _ p => get_reference_node P G p) L He) as [L1 H1].
  { intros k ph p Hin Hp. rewrite (ref_node_spec (pG P) HP G HG P p eq_refl (HD _ _ Hin Hp)). eauto. }
  assert (A : Lrel (fun _ p p' => p' = p <| pnstar := Z.of_nat (cell_node (pG P) (px p)) |>) L L1).
  { eapply points__rel; [|exact H1]. intros k ph p p' Hin Hp Hf. cbv beta in Hf.
    rewrite (ref_node_spec (pG P) HP G HG P p eq_refl (HD _ _ Hin Hp)) in Hf. inv Hf. reflexivity. }
  assert (D1 : all_live L1 (fun _ p => in_dom (pG P) (px p) /\ pnstar p = Z.of_nat (cell_node (pG P) (px p)))).
  { eapply Lrel_all_live; [exact A| |exact HD]. cbv beta. intros ph p ph' p' _ _ _ _ _ -> HI. cbn. auto. }
  destruct (points__total (fun _ _ p => get_basis_functions G p) L1 (Lrel_enough _ _ _ A He)) as [L2 H2].
  { intros k ph p Hin Hp. destruct (D1 _ _ Hin Hp) as [I1 I2].
    rewrite (basis_spec (pG P) HP G HG p I1 I2). eauto. }
  exists L1, L2. split; auto.
Qed.

(** ** Weights of located points *)
Lemma hit_corner Pg x r k : proper Pg -> in_dom Pg x -> (r < 4)%nat ->
  hit (nodes Pg) (nearby (Z.of_nat (cell_node Pg x)) r (nx Pg)) k =
  if Nat.eqb k (corner_node Pg (cell_node Pg x) r) then 1 else 0.
Proof. intros. unfold hit. rewrite corner_in_range; auto. Qed.

Lemma wt_hat P p k : proper (pG P) -> located (pG P) p -> wt P p k = hat (pG P) (px p) k.
Proof.
  intros HP HL. pose proof HL as (HD & EN & _). unfold wt.
  rewrite (fsum_ext _ _ (fun r => (if Nat.eqb k (corner_node (pG P) (cell_node (pG P) (px p)) r) then 1 else 0)
                                  * wN (cell_w (pG P)) (cell_h (pG P)) (loc (pG P) (px p)) r)).
  2: { intros r Hr. rewrite EN, hit_corner by auto. rewrite (located_N _ _ _ HL). reflexivity. }
  destruct (List.in_dec Nat.eq_dec k (map (corner_node (pG P) (cell_node (pG P) (px p))) (seq 0 4))) as [Hin|Hn].
  - apply in_map_iff in Hin. destruct Hin as (r & <- & Hr). apply in_seq in Hr.
    rewrite (fsum_single 4 r).
    + rewrite Nat.eqb_refl, Rmult_1_l. rewrite hat_corner; auto; lia.
    + lia.
    + intros s Hs Hne. destruct (Nat.eqb_spec (corner_node (pG P) (cell_node (pG P) (px p)) r)
                                            (corner_node (pG P) (cell_node (pG P) (px p)) s)) as [E|E]; [|lra].
      exfalso. apply Hne. symmetry. eapply corner_inj; eauto; lia.
  - rewrite hat_far; auto.
    + apply fsum_zero. intros r Hr.
      destruct (Nat.eqb_spec k (corner_node (pG P) (cell_node (pG P) (px p)) r)) as [E|E]; [|lra].
      exfalso. apply Hn. apply in_map_iff. exists r. split; auto. apply in_seq. lia.
    + intros r Hr E. apply Hn. apply in_map_iff. exists r. split; auto. apply in_seq. lia.
Qed.

Lemma located_reaches P p : proper (pG P) -> located (pG P) p -> reaches P p.
Proof.
  intros HP (HD & EN & _) r Hr. rewrite EN. rewrite corner_in_range; eauto.
Qed.

(** ** The wiped grid *)
Lemma wipe_geo P (G : grid R) : gdx (wipe P G) = gdx G /\ gdy (wipe P G) = gdy G /\ gX (wipe P G) = gX G /\
  gY (wipe P G) = gY G /\ gV (wipe P G) = gV G /\ bv (wipe P G) = bv G /\ bh (wipe P G) = bh G /\
  btot (wipe P G) = btot G /\ bconv (wipe P G) = bconv G.
Proof. unfold wipe. destruct (p_seg P); cbn; repeat split; auto. Qed.
Lemma wipe_ok P (G : grid R) Pg : grid_ok Pg G -> grid_ok Pg (wipe P G).
Proof.
  intros H. destruct (wipe_geo P G) as (E1 & E2 & E3 & E4 & E5 & E6 & E7 & E8 & E9).
  destruct H. constructor; rewrite ?E1, ?E2, ?E3, ?E4, ?E5, ?E6, ?E7, ?E8, ?E9; auto.
Qed.
Lemma wipe_lens P (G : grid R) : p2g_lens P (wipe P G).
Proof.
  unfold p2g_lens, wipe. destruct (p_seg P); cbn; rewrite !repeat_length;
  (split; [auto|split; [auto|]]); intros; try discriminate; auto.
Qed.
Lemma nth_repeat_same {A} (d : A) n k : nth k (repeat d n) d = d.
Proof.
  destruct (Nat.lt_ge_cases k n).
  - apply nth_repeat_any; auto.
  - apply nth_overflow. rewrite repeat_length; auto.
Qed.
Lemma wipe_m P (G : grid R) k : nth k (gm (wipe P G)) 0 = 0.
Proof. unfold wipe. destruct (p_seg P); cbn; apply nth_repeat_same. Qed.
Lemma wipe_q P (G : grid R) k : nth k (gq (wipe P G)) v0 = v0.
Proof. unfold wipe. destruct (p_seg P); cbn; apply nth_repeat_same. Qed.
Lemma wipe_fi P (G : grid R) : gfi (wipe P G) = repeat v0 (nodes (pG P)).
Proof. unfold wipe. destruct (p_seg P); reflexivity. Qed.
Lemma wipe_fe P (G : grid R) : gfe (wipe P G) = repeat v0 (nodes (pG P)).
Proof. unfold wipe. destruct (p_seg P); reflexivity. Qed.
Lemma wipe_ext P (G : grid R) : gext (wipe P G) = repeat v0 (nodes (pG P)).
Proof. unfold wipe. destruct (p_seg P); reflexivity. Qed.

(** ** Nodal mass *)
Lemma p2g_all_mass P L G G' : p2g_lens P G -> p2g_all P L G = Ok G' ->
  length (gm G') = nodes (pG P) /\ all_live L (fun _ p => reaches P p) /\
  forall k, nth k (gm G') 0 = nth k (gm G) 0 + mass_at P L k.
Proof.
  intros HL H. apply p2g_all_loop in H. destruct H as (L1 & G1 & H1 & Em & _).
  destruct (p2g_loop_spec P L G L1 G1 HL H1) as (_ & L2 & Re & M & _).
  rewrite Em. repeat split; auto. apply L2.
Qed.

Lemma mask_x_comp b (q : list (V3 R)) k : (length b = length q)%nat ->
  vx (nth k (mask_x b q) v0) = (if nth k b false then 0 else 1) * vx (nth k q v0) /\
  vy (nth k (mask_x b q) v0) = vy (nth k q v0) /\ vz (nth k (mask_x b q) v0) = vz (nth k q v0) /\
  length (mask_x b q) = length q.
Proof.
  intros E. unfold mask_x.
  assert (L : length (zipw (fun bi qi => setx (fun a => (a * (n1 - nofb bi))%num) qi) b q) = length q)
    by (rewrite zipw_length; lia).
  destruct (Nat.lt_ge_cases k (length q)).
  - rewrite (zipw_nth _ _ _ _ false v0 v0) by lia. cbn.
    repeat split; auto. destruct (nth k b false); cbn; lra.
  - rewrite !(nth_overflow q), (nth_overflow (zipw _ _ _)) by lia. cbn. repeat split; auto; lra.
Qed.
Lemma mask_y_comp b (q : list (V3 R)) k : (length b = length q)%nat ->
  vx (nth k (mask_y b q) v0) = vx (nth k q v0) /\
  vy (nth k (mask_y b q) v0) = (if nth k b false then 0 else 1) * vy (nth k q v0) /\
  vz (nth k (mask_y b q) v0) = vz (nth k q v0) /\
  length (mask_y b q) = length q.
Proof.
  intros E. unfold mask_y.
  assert (L : length (zipw (fun bi qi => sety (fun a => (a * (n1 - nofb bi))%num) qi) b q) = length q)
    by (rewrite zipw_length; lia).
  destruct (Nat.lt_ge_cases k (length q)).
  - rewrite (zipw_nth _ _ _ _ false v0 v0) by lia. cbn.
    repeat split; auto. destruct (nth k b false); cbn; lra.
  - rewrite !(nth_overflow q), (nth_overflow (zipw _ _ _)) by lia. cbn. repeat split; auto; lra.
Qed.

(** Which components the wall conditions remove at node [k]. *)
Definition open_x (rough : bool) (v h : list bool) (k : nat) : R :=
  if orb (nth k v false) (andb rough (nth k h false)) then 0 else 1.
Definition open_y (rough : bool) (v h : list bool) (k : nat) : R :=
  if orb (nth k h false) (andb rough (nth k v false)) then 0 else 1.
Definition open_a (a : axis) (rough : bool) (v h : list bool) (k : nat) : R :=
  match a with AX => open_x rough v h k | AY => open_y rough v h k | AZ => 1 end.

Lemma walls_comp rough v h (q : list (V3 R)) k a :
  (length v = length q)%nat -> (length h = length q)%nat ->
  let q1 := mask_y h (mask_x v q) in
  let q2 := if rough : bool then mask_y v (mask_x h q1) else q1 in
  comp a (nth k q2 v0) = open_a a rough v h k * comp a (nth k q v0) /\ length q2 = length q.
Proof.
  intros Ev Eh q1 q2.
  destruct (mask_x_comp v q k Ev) as (X1 & X2 & X3 & X4).
  destruct (mask_y_comp h (mask_x v q) k) as (Y1 & Y2 & Y3 & Y4); [lia|].
  fold q1 in Y1, Y2, Y3, Y4.
  assert (L1 : length q1 = length q) by lia.
  destruct (mask_x_comp h q1 k) as (U1 & U2 & U3 & U4); [lia|].
  destruct (mask_y_comp v (mask_x h q1) k) as (W1 & W2 & W3 & W4); [lia|].
  unfold q2. destruct rough.
  - split; [|lia]. destruct a; cbn [comp open_a]; unfold open_x, open_y.
    + rewrite W1, U1, Y1, X1. destruct (nth k v false), (nth k h false); cbn; lra.
    + rewrite W2, U2, Y2, X2. destruct (nth k v false), (nth k h false); cbn; lra.
    + rewrite W3, U3, Y3, X3. lra.
  - split; [|lia]. destruct a; cbn [comp open_a]; unfold open_x, open_y.
    + rewrite Y1, X1. destruct (nth k v false), (nth k h false); cbn; lra.
    + rewrite Y2, X2. destruct (nth k v false), (nth k h false); cbn; lra.
    + rewrite Y3, X3. lra.
Qed.

Lemma p2g_all_mom P L G G' : p2g_lens P G -> length (bv G) = nodes (pG P) -> length (bh G) = nodes (pG P) ->
  p2g_all P L G = Ok G' ->
  length (gq G') = nodes (pG P) /\
  forall a k, comp a (nth k (gq G') v0) =
    open_a a (roughness (pB P)) (bv G) (bh G) k * (comp a (nth k (gq G) v0) + mom_at P L a k).
Proof.
  intros HL Hv Hh H. apply p2g_all_loop in H. destruct H as (L1 & G1 & H1 & _ & Eq & _).
  destruct (p2g_loop_spec P L G L1 G1 HL H1) as (F & L2 & _ & _ & M).
  assert (Ev : bv G1 = bv G) by (rewrite F; reflexivity).
  assert (Eh : bh G1 = bh G) by (rewrite F; reflexivity).
  destruct L2 as (_ & Lq & _).
  cbv zeta in Eq. rewrite Ev, Eh in Eq. rewrite Eq.
  split.
  - destruct (walls_comp (roughness (pB P)) (bv G) (bh G) (gq G1) 0 AX) as [_ W]; [lia|lia|]. cbv zeta in W. lia.
  - intros a k. destruct (walls_comp (roughness (pB P)) (bv G) (bh G) (gq G1) k a) as [W _]; [lia|lia|].
    cbv zeta in W. rewrite W, M. reflexivity.
Qed.

(** Everything except the mapped fields is kept. *)
Definition frame_all (G G' : grid R) : Prop :=
  G' = G <| gm := gm G' |> <| gq := gq G' |> <| g_phim := g_phim G' |> <| g_pkm := g_pkm G' |>
         <| g_phi := g_phi G' |> <| g_sbar := g_sbar G' |> <| g_pk := g_pk G' |>.
Lemma p2g_all_frame P L G G' : p2g_lens P G -> p2g_all P L G = Ok G' -> frame_all G G'.
Proof.
  intros HL H. apply p2g_all_loop in H. destruct H as (L1 & G1 & H1 & Em & Eq & _ & F2).
  destruct (p2g_loop_spec P L G L1 G1 HL H1) as (F & L2 & _ & _ & M).
  unfold frame_all, frame_loop in *. rewrite F2. cbn. rewrite F. cbn. reflexivity.
Qed.

(** ** Totals *)
Lemma mass_total P L : all_live L (fun _ p => reaches P p /\ fsum 4 (Nr p) = 1) ->
  fsum (nodes (pG P)) (mass_at P L) = psum L (fun _ p => pm p).
Proof.
  intros H. unfold mass_at. rewrite (psum_swap _ L (fun k _ p => pm p * wt P p k)).
  apply psum_ext. intros ph p Hin Hp. destruct (H _ _ Hin Hp) as [Re U].
  rewrite fsum_scal. unfold wt. rewrite (reaches_sum P p (Nr p) Re), U. lra.
Qed.
Lemma mom_total P L a : all_live L (fun _ p => reaches P p /\ fsum 4 (Nr p) = 1) ->
  fsum (nodes (pG P)) (mom_at P L a) = psum L (fun ph p => pm p * comp a (velocity ph p)).
Proof.
  intros H. unfold mom_at.
  rewrite (psum_swap _ L (fun k ph p => pm p * wt P p k * comp a (velocity ph p))).
  apply psum_ext. intros ph p Hin Hp. destruct (H _ _ Hin Hp) as [Re U].
  rewrite fsum_scal_r, fsum_scal. unfold wt. rewrite (reaches_sum P p (Nr p) Re), U. lra.
Qed.

(** ** Nodal forces *)
Section Forces.
  Context (P : params R).
  Let N := nodes (pG P).
  Let nxx := nx (pG P).

  Definition fint_at (p : particle R) (a : axis) (k : nat) : R :=
    fsum 4 (fun r => hit N (nearby (pnstar p) r nxx) k * (pV p * comp a (mv (pstress p) (Gr p r)))).

  Definition frame_f (G G' : grid R) : Prop :=
    G' = G <| gfi := gfi G' |> <| gfe := gfe G' |>.
  Definition f_lens (G : grid R) : Prop := length (gfi G) = N /\ length (gfe G) = N.

  Lemma nodal_forces_inv p G G' : f_lens G -> nodal_forces P p G = Ok G' ->
    frame_f G G' /\ f_lens G' /\ reaches P p.
  Proof.
    intros HL H. unfold nodal_forces in H.
    apply (four_acc P (pnstar p) _ (fun G' => frame_f G G' /\ f_lens G')
             (fun r => exists k, pyi N (nearby (pnstar p) r nxx) = Some k) (fun _ => 0) (fun _ => 0)) in H.
    - destruct H as ((F & L) & V & _). split; auto.
    - split; auto. destruct G; reflexivity.
    - intros r t t' Hr (F & L1 & L2) Hf. pbinds Hf.
      pose proof (py_upd_length _ _ _ _ E) as Lm. pose proof (py_upd_length _ _ _ _ E0) as Lq.
      apply py_upd_ok in E. destruct E as (k & Ek & _ & _). rewrite L1 in Ek.
      injection Hf as <-. split; [split|split; [eauto|lra]].
      + unfold frame_f in *. cbn. rewrite F. reflexivity.
      + unfold f_lens. cbn. rewrite Lm, Lq. auto.
  Qed.

  Lemma nodal_forces_fi p G G' a k : f_lens G -> nodal_forces P p G = Ok G' ->
    comp a (nth k (gfi G') v0) = comp a (nth k (gfi G) v0) + fint_at p a k.
  Proof.
    intros HL H. unfold nodal_forces in H.
    apply (four_acc P (pnstar p) _ (fun G' => length (gfi G') = N)
             (fun r => True) (fun G => comp a (nth k (gfi G) v0))
             (fun r => hit N (nearby (pnstar p) r nxx) k * (pV p * comp a (mv (pstress p) (Gr p r))))) in H.
    - destruct H as (_ & _ & H). exact H.
    - apply HL.
    - intros r t t' Hr L1 Hf. pbinds Hf. injection Hf as <-. cbn.
      pose proof (py_upd_length _ _ _ _ E) as Lm.
      pose proof (upd_proj (comp a) _ _ _ _ (pV p * comp a (mv (pstress p) (Gr p r))) v0 E) as U. rewrite L1 in U.
      split; [congruence|]. split; [auto|]. apply U. intros.
      rewrite comp_vadd, comp_vscale. reflexivity.
  Qed.

  Lemma nodal_forces_fe p G G' a k : f_lens G -> nodal_forces P p G = Ok G' ->
    comp a (nth k (gfe G') v0) = comp a (nth k (gfe G) v0) + pm p * wt P p k * comp a (pb p).
  Proof.
    intros HL H. unfold nodal_forces in H.
    apply (four_acc P (pnstar p) _ (fun G' => length (gfe G') = N)
             (fun r => True) (fun G => comp a (nth k (gfe G) v0))
             (fun r => hit N (nearby (pnstar p) r nxx) k * (Nr p r * pm p * comp a (pb p)))) in H.
    - destruct H as (_ & _ & H). rewrite H. f_equal. unfold wt.
      rewrite Rmult_assoc, (Rmult_comm _ (comp a _)), <- Rmult_assoc, <- fsum_scal.
      apply fsum_ext. unfold N, nxx. intros; lra.
    - apply HL.
    - intros r t t' Hr L1 Hf. pbinds Hf. injection Hf as <-. cbn.
      pose proof (py_upd_length _ _ _ _ E0) as Lm.
      pose proof (upd_proj (comp a) _ _ _ _ (Nr p r * pm p * comp a (pb p)) v0 E0) as U. rewrite L1 in U.
      split; [congruence|]. split; [auto|]. apply U. intros.
      rewrite comp_vadd, comp_vscale. reflexivity.
  Qed.

  Definition force_loop L G := points_r (fun _ _ p G => nodal_forces P p G) L G.

  Lemma force_loop_spec (L : list (phase R)) G G' : f_lens G -> force_loop L G = Ok G' ->
    frame_f G G' /\ f_lens G' /\
    (forall a k, comp a (nth k (gfi G') v0) = comp a (nth k (gfi G) v0) + psum L (fun _ p => fint_at p a k)) /\
    (forall a k, comp a (nth k (gfe G') v0) = comp a (nth k (gfe G) v0) +
                   psum L (fun _ p => pm p * wt P p k * comp a (pb p))).
  Proof.
    intros HL H. unfold force_loop in H.
    assert (A : forall (obs : grid R -> R) c,
      (forall p G G', f_lens G -> nodal_forces P p G = Ok G' -> obs G' = obs G + c p) ->
      (frame_f G G' /\ f_lens G') /\ obs G' = obs G + psum L (fun _ p => c p)).
    { intros obs c Hobs.
      apply (points_r_acc _ (fun G' => frame_f G G' /\ f_lens G') obs (fun _ p => c p)) in H; auto.
      - split; auto. destruct G; reflexivity.
      - intros j ph p t t' _ _ (F & Lt) Hf. destruct (nodal_forces_inv _ _ _ Lt Hf) as (F2 & L2 & _).
        split; [split; auto|eauto]. unfold frame_f in *. rewrite F2. cbn. rewrite F. reflexivity. }
    destruct (A (fun _ => 0) (fun _ => 0)) as ((F & L2) & _); [intros; lra|].
    split; [auto|]. split; [auto|]. split; intros a k.
    - apply (A (fun G => comp a (nth k (gfi G) v0))). intros. apply nodal_forces_fi; auto.
    - apply (A (fun G => comp a (nth k (gfe G) v0)) (fun p => pm p * wt P p k * comp a (pb p))).
      intros. apply nodal_forces_fe; auto.
  Qed.

  Lemma force_loop_reaches (L : list (phase R)) G G' : f_lens G -> force_loop L G = Ok G' ->
    all_live L (fun _ p => reaches P p).
  Proof.
    unfold force_loop, points_r, points. intros HL H. pbinds H. injection H as ->.
    revert HL E. generalize 0%nat. revert G b.
    induction L as [|ph L IH]; intros G b k HL H; simpl in H.
    - intros ? ? [].
    - pbinds H. injection H as <- <-. pbinds E. injection E as <- <-.
      assert (A : forall n l G l' G', f_lens G ->
        each n (fun p G => G <- nodal_forces P p G ;; Ok (p, G)) l G = Ok (l', G') ->
        f_lens G' /\ forall p, In p (firstn n l) -> reaches P p).
      { clear - N nxx. induction n; simpl; intros l G0 l0 G0' HL H.
        - inv H. split; auto. intros ? [].
        - destruct l; [discriminate|]. pbinds H. injection H as <- <-. pbinds E. injection E as <- <-.
          destruct (nodal_forces_inv _ _ _ HL E1) as (_ & L4 & R4).
          destruct (IHn _ _ _ _ L4 E0) as [L5 R5]. split; [exact L5|].
          intros q [<-|Hq]; [exact R4 | apply R5; auto]. }
      destruct (A _ _ _ _ _ HL E1) as [L5 R5].
      specialize (IH _ _ _ L5 E0).
      intros ph' p [<-|Hin] Hp; auto. eapply IH; eauto.
  Qed.

  (** Resultants. *)
  Lemma fint_total p a : reaches P p -> (forall a, fsum 4 (fun r => comp a (Gr p r)) = 0) ->
    fsum N (fint_at p a) = 0.
  Proof.
    intros Re Z. unfold fint_at.
    rewrite (reaches_sum P p (fun r => pV p * comp a (mv (pstress p) (Gr p r))) Re).
    rewrite fsum_scal.
    assert (E : fsum 4 (fun r => comp a (mv (pstress p) (Gr p r))) = 0); [|rewrite E; lra].
    pose proof (Z AX) as ZX. pose proof (Z AY) as ZY. pose proof (Z AZ) as ZZ.
    destruct a;
    [ transitivity (xx (pstress p) * fsum 4 (fun r => vx (Gr p r)) + xy (pstress p) * fsum 4 (fun r => vy (Gr p r))
                    + xz (pstress p) * fsum 4 (fun r => vz (Gr p r)))
    | transitivity (yx (pstress p) * fsum 4 (fun r => vx (Gr p r)) + yy (pstress p) * fsum 4 (fun r => vy (Gr p r))
                    + yz (pstress p) * fsum 4 (fun r => vz (Gr p r)))
    | transitivity (zx (pstress p) * fsum 4 (fun r => vx (Gr p r)) + zy (pstress p) * fsum 4 (fun r => vy (Gr p r))
                    + zz (pstress p) * fsum 4 (fun r => vz (Gr p r))) ];
    try (cbn [comp] in ZX, ZY, ZZ; rewrite ZX, ZY, ZZ; lra); cbn; ring.
  Qed.

  (** Moments of the internal force of a located point. *)
  Lemma moment_sum (X : nat -> R) p w : proper (pG P) -> located (pG P) p ->
    fsum N (fun k => X k * fsum 4 (fun r => hit N (nearby (pnstar p) r nxx) k * w r)) =
    fsum 4 (fun r => X (corner_node (pG P) (cell_node (pG P) (px p)) r) * w r).
  Proof.
    intros HP (HD & EN & _).
    rewrite (fsum_ext _ _ (fun k => fsum 4 (fun r => X k * (hit N (nearby (pnstar p) r nxx) k * w r)))).
    2: { intros. rewrite fsum_scal. reflexivity. }
    rewrite fsum_swap. apply fsum_ext. intros r Hr.
    assert (Hc : (corner_node (pG P) (cell_node (pG P) (px p)) r < N)%nat)
      by (apply corner_colrow; auto).
    rewrite (fsum_single _ (corner_node (pG P) (cell_node (pG P) (px p)) r)); auto.
    - rewrite EN. unfold N, nxx. rewrite hit_corner, Nat.eqb_refl by auto. lra.
    - intros j Hj Hne. rewrite EN. unfold N, nxx. rewrite hit_corner by auto.
      destruct (Nat.eqb_spec j (corner_node (pG P) (cell_node (pG P) (px p)) r)); [contradiction|lra].
  Qed.

  Lemma fint_moment p a : proper (pG P) -> located (pG P) p ->
    fsum N (fun k => node_x (pG P) k * fint_at p a k) = pV p * comp a (mkV3 (xx (pstress p)) (yx (pstress p)) (zx (pstress p))) /\
    fsum N (fun k => node_y (pG P) k * fint_at p a k) = pV p * comp a (mkV3 (xy (pstress p)) (yy (pstress p)) (zy (pstress p))).
  Proof.
    intros HP HL. pose proof HL as (HD & _).
    pose proof (cell_w_pos _ HP) as Wp. pose proof (cell_h_pos _ HP) as Hp.
    assert (Wn : cell_w (pG P) <> 0) by lra. assert (Hn : cell_h (pG P) <> 0) by lra.
    unfold fint_at.
    rewrite (moment_sum (node_x (pG P)) p (fun r => pV p * comp a (mv (pstress p) (Gr p r))) HP HL).
    rewrite (moment_sum (node_y (pG P)) p (fun r => pV p * comp a (mv (pstress p) (Gr p r))) HP HL).
    assert (C : forall r, (r < 4)%nat ->
      node_x (pG P) (corner_node (pG P) (cell_node (pG P) (px p)) r) =
        node_x (pG P) (cell_node (pG P) (px p)) + fst (corner (cell_w (pG P)) (cell_h (pG P)) r) /\
      node_y (pG P) (corner_node (pG P) (cell_node (pG P) (px p)) r) =
        node_y (pG P) (cell_node (pG P) (px p)) + snd (corner (cell_w (pG P)) (cell_h (pG P)) r)).
    { intros. apply corner_xy; auto. }
    set (x0 := node_x (pG P) (cell_node (pG P) (px p))) in *.
    set (y0 := node_y (pG P) (cell_node (pG P) (px p))) in *.
    cbn [fsum]. destruct (C 0%nat) as [-> ->]; [lia|]. destruct (C 1%nat) as [-> ->]; [lia|].
    destruct (C 2%nat) as [-> ->]; [lia|]. destruct (C 3%nat) as [-> ->]; [lia|].
    rewrite !(located_G _ p _ HL). unfold wG.
    set (lx := loc (pG P) (px p)). clearbody x0 y0 lx. clear C.
    destruct (pstress p). destruct a; cbn; split; field; auto.
  Qed.
End Forces.

(** ** Success of the mapping *)
Lemma py_upd_total {A} (l : list A) i f k : pyi (length l) i = Some k -> exists l', py_upd l i f = Ok l'.
Proof. intros. rewrite (py_upd_some _ _ _ _ H). eauto. Qed.

Definition seg_ok (P : params R) (G : grid R) : Prop :=
  p_seg P = true -> Forall (fun row => length row = ns (pG P)) (g_phim G).

Lemma Forall_upd {A} (Q : A -> Prop) k f l : Forall Q l -> (forall a, Q a -> Q (f a)) -> Forall Q (upd k f l).
Proof.
  intros H Hf. revert k. induction H; intros [|k]; simpl; constructor; auto.
Qed.

Lemma p2g_total P sv p G : p2g_lens P G -> seg_ok P G -> reaches P p ->
  (p_seg P = true -> length (pphi p) = ns (pG P)) ->
  exists G', p2g P sv p G = Ok G' /\ p2g_lens P G' /\ seg_ok P G'.
Proof.
  intros HL HS Re Hphi. unfold p2g.
  apply (four_total P (pnstar p) _ (fun G => p2g_lens P G /\ seg_ok P G)); [auto|].
  intros r t Hr ((L1 & L2 & L3) & HS'). destruct (Re r Hr) as [k Ek].
  rewrite (py_upd_some (gm t) _ k) by (rewrite L1; auto). cbn [bind].
  rewrite (py_upd_some (gq t) _ k) by (rewrite L2; auto). cbn [bind].
  destruct (p_seg P) eqn:SEG.
  - destruct (L3 eq_refl) as [L4 L5].
    assert (Hk : (k < length (g_phim t))%nat) by (rewrite L4; eapply pyi_lt; eauto).
    cbn [g_phim g_pkm]. unR.
    change (g_phim (t <| gm := _ |> <| gq := _ |>)) with (g_phim t).
    rewrite (py_get_some (g_phim t) _ k [] ) by (try rewrite L4; auto). cbn [bind].
    assert (Hrow : length (nth k (g_phim t) []) = ns (pG P)).
    { specialize (HS' SEG). rewrite Forall_forall in HS'. apply HS', nth_In; auto. }
    unfold row_add. rewrite Hrow, map_length, Hphi, Nat.eqb_refl by auto. cbn [bind].
    rewrite (py_upd_some (g_phim t) _ k) by (rewrite L4; auto). cbn [bind].
    change (g_pkm (t <| gm := _ |> <| gq := _ |>)) with (g_pkm t).
    rewrite (py_upd_some (g_pkm t) _ k) by (rewrite L5; auto). cbn [bind].
    eexists. split; [reflexivity|]. split.
    + unfold p2g_lens. cbn. rewrite !upd_length. auto.
    + intros _. cbn. apply Forall_upd; auto. intros _ _. rewrite zipw_length, map_length, Hrow, Hphi; auto.
      apply Nat.min_id.
  - eexists. split; [reflexivity|]. split.
    + unfold p2g_lens. cbn. rewrite !upd_length. split; [auto|split; auto]. congruence.
    + intros E. congruence.
Qed.

Lemma wipe_seg P G : seg_ok P (wipe P G).
Proof.
  intros E. unfold wipe. rewrite E. cbn. apply Forall_forall. intros row Hin.
  apply repeat_spec in Hin. subst. apply repeat_length.
Qed.

Lemma p2g_all_total P L G : p2g_lens P G -> seg_ok P G -> enough L ->
  all_live L (fun _ p => reaches P p /\ (p_seg P = true -> length (pphi p) = ns (pG P))) ->
  exists G', p2g_all P L G = Ok G'.
Proof.
  intros HL HS He HA. unfold p2g_all.
  destruct (forM_total (fun _ ph G =>
        '(_, G) <- each (ph_n ph) (fun p G => G <- p2g P (ph_sv ph) p G ;; Ok (p, G)) (ph_pts ph) G ;;
        Ok (ph, if p_seg P then G <| g_phi := node_fractions G |> else G))
        (fun G => p2g_lens P G /\ seg_ok P G) L 0 G) as (L' & G' & E & _).
  - auto.
  - intros k ph t Hin (Lt & St).
    destruct (each_total (fun p G => G <- p2g P (ph_sv ph) p G ;; Ok (p, G))
                (fun G => p2g_lens P G /\ seg_ok P G) (ph_n ph) (ph_pts ph) t) as (l' & t' & -> & Lt' & St').
    + auto.
    + auto.
    + intros p u Hp (Lu & Su). destruct (HA _ _ Hin Hp) as [Re Hphi].
      destruct (p2g_total P (ph_sv ph) p u Lu Su Re Hphi) as (u' & -> & Lu' & Su'). cbn [bind]. eauto 6.
    + cbn [bind]. eexists _, _. split; [reflexivity|]. destruct (p_seg P); split; auto.
  - rewrite E. cbn [bind]. eauto.
Qed.
