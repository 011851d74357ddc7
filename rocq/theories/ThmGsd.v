(** * The nodal mean grain size: C70, C71. *)
From Coq Require Import ZArith Reals List Bool Arith Lra Lia.
From Verif Require Import State NumR Spec LibList LibR ModelGrid ModelConstit ModelParticle ModelMPList
  ModelIntegr ModelNT SpecLaws ProofsGrid ProofsMap ProofsP2G ProofsStep Concrete ThmMapping ThmLaws ThmSeg.
Import ListNotations.
Local Open Scope R_scope.

Lemma corner_found Pg x k : proper Pg -> in_dom Pg x -> (k < nodes Pg)%nat -> cell_corner Pg x k ->
  exists r, (r < 4)%nat /\ k = corner_node Pg (cell_node Pg x) r.
Proof.
  intros HP HD Hk [HX HY]. destruct HD as [DX DY].
  destruct (cell_i_spec Pg HP (vx x) DX) as (I1 & I2 & _). destruct (cell_j_spec Pg HP (vy x) DY) as (J1 & J2 & _).
  pose proof (cell_w_pos Pg HP) as Wp. pose proof (cell_h_pos Pg HP) as Hp. unfold node_x in HX. unfold node_y in HY.
  set (c := col Pg k) in *. set (w := row Pg k) in *. rewrite plus_INR in I2, J2. cbn [INR] in I2, J2.
  assert (A1 : INR (cell_i Pg (vx x)) < INR c + 1) by (apply Rmult_lt_reg_r with (cell_w Pg); lra).
  assert (A2 : INR c < INR (cell_i Pg (vx x)) + 2) by (apply Rmult_lt_reg_r with (cell_w Pg); lra).
  assert (B1 : INR (cell_j Pg (vy x)) < INR w + 1) by (apply Rmult_lt_reg_r with (cell_h Pg); lra).
  assert (B2 : INR w < INR (cell_j Pg (vy x)) + 2) by (apply Rmult_lt_reg_r with (cell_h Pg); lra).
  rewrite <- S_INR in A1, B1. replace 2 with (INR 2) in A2, B2 by (cbn; lra). rewrite <- plus_INR in A2, B2.
  apply INR_lt in A1, A2, B1, B2.
  assert (N : (k = w * nx Pg + c)%nat).
  { unfold w, c, row, col. rewrite Nat.mul_comm. apply Nat.div_mod. destruct HP; lia. }
  assert (C : c = cell_i Pg (vx x) \/ c = S (cell_i Pg (vx x))) by lia. assert (D : w = cell_j Pg (vy x) \/ w = S (cell_j Pg (vy x))) by lia.
  unfold cell_node. rewrite N. destruct C as [-> | ->], D as [-> | ->].
  - exists 0%nat. cbn. lia.
  - exists 3%nat. cbn. lia.
  - exists 1%nat. cbn. lia.
  - exists 2%nat. cbn. lia.
Qed.
Lemma map_false {A} k (l : list A) : nth k (map (fun _ => false) l) false = false.
Proof. revert k. induction l; intros [|k]; cbn; auto. Qed.
Definition heavyb (P : params R) (G : grid R) (k : nat) : R := if Rlt_dec (p_Mtol P) (nth k (gm G) 0) then 1 else 0.
Lemma heavyb_test P (G : grid R) k : heavyb P G k = if nltb (p_Mtol P) (nth k (gm G) 0) then 1 else 0.
Proof.
  unfold heavyb. cbn [nltb Num_R]. destruct (Rlt_dec _ _) as [Q|Q]; [rewrite (proj2 (Rltb_true _ _) Q); reflexivity|].
  destruct (Rltb _ _) eqn:E; [apply Rltb_true in E; contradiction|reflexivity].
Qed.
Definition gsd_frame (P : params R) (G G' : grid R) : Prop :=
  G' = G <| g_sbar := g_sbar G' |> /\ length (gm G') = nodes (pG P) /\ length (g_sbar G') = nodes (pG P).
Lemma update_gsd_spec P s (p : particle R) G G' : length (gm G) = nodes (pG P) -> length (g_sbar G) = nodes (pG P) ->
  update_nodal_gsd P (Some s) p G = Ok G' ->
  gsd_frame P G G' /\ forall k, nth k (g_sbar G') 0 = nth k (g_sbar G) 0 + heavyb P G k * (wt P p k * pm p * s).
Proof.
  intros HM HS E. unfold update_nodal_gsd in E.
  assert (A : forall k, gsd_frame P G G' /\ nth k (g_sbar G') 0 = nth k (g_sbar G) 0 +
     fsum 4 (fun r => heavyb P G k * (hit (nodes (pG P)) (nearby (pnstar p) r (nx (pG P))) k * Nr p r * pm p * s))).
  { intros k. apply (four_acc P (pnstar p) _ (gsd_frame P G) (fun _ => True) (fun G => nth k (g_sbar G) 0)
      (fun r => heavyb P G k * (hit (nodes (pG P)) (nearby (pnstar p) r (nx (pG P))) k * Nr p r * pm p * s))) in E.
    - destruct E as (F & _ & E). auto.
    - split; [destruct G; reflexivity|auto].
    - intros r t t' Hr (F & F1 & F2) Hf. apply bind_ok in Hf. destruct Hf as (m & Em & Hf).
      assert (GM : gm t = gm G) by (rewrite F; reflexivity).
      destruct (py_get_ok _ _ _ 0 Em) as (k0 & Ek & Hk0 & ->). rewrite F1 in Ek. rewrite GM in Hf. rewrite heavyb_test.
      destruct (nltb (p_Mtol P) (nth k0 (gm G) 0)) eqn:EH.
      + cbn [attr bind] in Hf. apply bind_ok in Hf. destruct Hf as (a & Ea & Hf). injection Hf as <-.
        pose proof (py_upd_length _ _ _ _ Ea) as Ln.
        pose proof (upd_proj (fun a => a) _ _ _ _ (Nr p r * pm p * s) 0 Ea ltac:(intros; reflexivity) k) as U. cbv beta in U. rewrite F2 in U.
        split; [|split; [exact I|]].
        * split; [rewrite F; reflexivity|]. cbn. split; [exact F1|congruence].
        * change (nth k a 0 = nth k (g_sbar t) 0 + (if nltb (p_Mtol P) (nth k (gm G) 0) then 1 else 0) * (hit (nodes (pG P)) (nearby (pnstar p) r (nx (pG P))) k * Nr p r * pm p * s)). rewrite U. unfold hit. rewrite Ek. destruct (Nat.eqb_spec k k0) as [->|N].
          -- rewrite EH. ring.
          -- ring.
      + injection Hf as <-. split; [split; auto|]. split; [exact I|]. unfold hit. rewrite Ek.
        destruct (Nat.eqb_spec k k0) as [->|N]; [rewrite EH; ring|ring]. }
  split; [apply (A 0%nat)|]. intros k. destruct (A k) as [_ ->]. f_equal.
  rewrite (fsum_scal 4 (heavyb P G k) (fun r => hit (nodes (pG P)) (nearby (pnstar p) r (nx (pG P))) k * Nr p r * pm p * s)). f_equal.
  unfold wt. rewrite Rmult_assoc, <- fsum_scal_r. apply fsum_ext. intros. ring.
Qed.
Lemma gsd_loop P seg_mp size sz (L : list (phase R)) G G' : length (gm G) = nodes (pG P) -> length (g_sbar G) = nodes (pG P) ->
  all_live L (fun _ p => size p = Some (sz p)) -> p_seg P || seg_mp = true -> get_nodal_gsd P seg_mp size L G = Ok G' ->
  gm G' = gm G /\ forall k, (k < nodes (pG P))%nat -> nth k (g_sbar G') 0 =
    (nth k (g_sbar G) 0 + heavyb P G k * psum L (fun _ p => wt P p k * pm p * sz p)) / nth k (gm G) 0.
Proof.
  intros HM HS HZ Hseg E. unfold get_nodal_gsd in E. apply bind_ok in E. destruct E as (G1 & E & EQ). rewrite Hseg in EQ. injection EQ as <-.
  assert (A : forall k, gsd_frame P G G1 /\ nth k (g_sbar G1) 0 = nth k (g_sbar G) 0 + psum L (fun _ p => heavyb P G k * (wt P p k * pm p * sz p))).
  { intros k. apply (points_r_acc _ (gsd_frame P G) (fun G => nth k (g_sbar G) 0) (fun _ p => heavyb P G k * (wt P p k * pm p * sz p))) in E; [exact E| |].
    - split; [destruct G; reflexivity|auto].
    - intros _ ph p t t' Hph Hp (F & F1 & F2) Hf. rewrite (HZ ph p Hph Hp) in Hf.
      destruct (update_gsd_spec P (sz p) p t t' F1 F2 Hf) as ((G1' & G2 & G3) & U).
      assert (GM : gm t = gm G) by (rewrite F; reflexivity).
      split; [split; [rewrite G1', F; reflexivity|auto]|]. rewrite U. unfold heavyb. rewrite GM. reflexivity. }
  destruct (A 0%nat) as ((F & F1 & F2) & _). split; [cbn; rewrite F; reflexivity|]. intros k Hk.
  cbn. rewrite (zipw_nth _ _ _ _ 0 0) by lia. destruct (A k) as [_ ->].
  rewrite (psum_scal L (heavyb P G k) (fun _ p => wt P p k * pm p * sz p)). rewrite F. reflexivity.
Qed.
(** When the points carry a size, get_nodal_gsd gives at every node heavier than
    the threshold the tent- and mass-weighted mean of the sizes. *)
Lemma p_C70_mean : forall (P : params R) seg_mp size sz L G G', proper (pG P) -> all_live L (fun _ p => located (pG P) p /\ size p = Some (sz p)) ->
  p_seg P || seg_mp = true -> length (gm G) = nodes (pG P) -> g_sbar G = repeat 0 (nodes (pG P)) ->
  get_nodal_gsd P seg_mp size L G = Ok G' ->
  forall k, (k < nodes (pG P))%nat -> nth k (g_sbar G') 0 =
    if Rlt_dec (p_Mtol P) (nth k (gm G) 0) then psum L (fun _ p => hat (pG P) (px p) k * pm p * sz p) / nth k (gm G) 0 else 0.
Proof.
  intros P seg_mp size sz L G G' HP HL Hseg HM HS E k Hk.
  assert (LS : length (g_sbar G) = nodes (pG P)) by (rewrite HS; apply repeat_length).
  destruct (gsd_loop P seg_mp size sz L G G' HM LS ltac:(intros ph p A B; apply (HL ph p A B)) Hseg E) as [_ ->]; [|exact Hk].
  rewrite HS, nth_repeat_same.
  rewrite (psum_ext L (fun _ p => wt P p k * pm p * sz p) (fun _ p => hat (pG P) (px p) k * pm p * sz p)).
  2:{ intros ph p A B. rewrite wt_hat; [reflexivity|exact HP|apply (HL ph p A B)]. }
  unfold heavyb. destruct (Rlt_dec _ _); unfold Rdiv; ring.
Qed.
(** Hence, on the masses of the same points, it lies between the sizes. *)
Lemma p_C70_between : forall (P : params R) seg_mp size sz L G G' lo hi, proper (pG P) ->
  all_live L (fun _ p => located (pG P) p /\ size p = Some (sz p) /\ 0 <= pm p /\ lo <= sz p <= hi) ->
  p_seg P || seg_mp = true -> length (gm G) = nodes (pG P) -> g_sbar G = repeat 0 (nodes (pG P)) ->
  (forall k, (k < nodes (pG P))%nat -> nth k (gm G) 0 = psum L (fun _ p => hat (pG P) (px p) k * pm p)) -> 0 <= p_Mtol P ->
  get_nodal_gsd P seg_mp size L G = Ok G' ->
  forall k, (k < nodes (pG P))%nat -> p_Mtol P < nth k (gm G) 0 -> lo <= nth k (g_sbar G') 0 <= hi.
Proof.
  intros P seg_mp size sz L G G' lo hi HP HL Hseg HM HS HK HT E k Hk Hh.
  rewrite (p_C70_mean P seg_mp size sz L G G' HP ltac:(intros ph p A B; destruct (HL ph p A B) as (X & Y & _); auto) Hseg HM HS E k Hk).
  destruct (Rlt_dec _ _) as [_|N]; [|contradiction]. set (m := nth k (gm G) 0) in *. assert (Hm : 0 < m) by lra.
  assert (B1 : lo * m <= psum L (fun _ p => hat (pG P) (px p) k * pm p * sz p)).
  { unfold m. rewrite HK by exact Hk. rewrite <- (psum_scal L lo (fun _ p => hat (pG P) (px p) k * pm p)). apply psum_le. intros ph p A B.
    destruct (HL ph p A B) as (_ & _ & Z & W). assert (0 <= hat (pG P) (px p) k * pm p) by (apply Rmult_le_pos; [apply hat_nonneg|exact Z]). nra. }
  assert (B2 : psum L (fun _ p => hat (pG P) (px p) k * pm p * sz p) <= hi * m).
  { unfold m. rewrite HK by exact Hk. rewrite <- (psum_scal L hi (fun _ p => hat (pG P) (px p) k * pm p)). apply psum_le. intros ph p A B.
    destruct (HL ph p A B) as (_ & _ & Z & W). assert (0 <= hat (pG P) (px p) k * pm p) by (apply Rmult_le_pos; [apply hat_nonneg|exact Z]). nra. }
  set (s := psum L _) in *. clearbody s m. split; apply Rmult_le_reg_r with m; try exact Hm; replace (s / m * m) with s by (field; lra); lra.
Qed.
(** No class of the code gives a particle the attribute [size]: the function
    cannot finish once a point touches a node heavier than the threshold. *)
Lemma p_C70_size_refuted : forall (P : params R) seg_mp L G ph p k, proper (pG P) -> all_live L (fun _ p => located (pG P) p) ->
  length (gm G) = nodes (pG P) -> In ph L -> In p (live ph) -> (k < nodes (pG P))%nat ->
  cell_corner (pG P) (px p) k -> p_Mtol P < nth k (gm G) 0 ->
  forall G', get_nodal_gsd P seg_mp (fun _ => None) L G <> Ok G'.
Proof.
  intros P seg_mp L G ph p k HP HL HM Hph Hp Hk HC Hh G' E.
  destruct (corner_found _ _ _ HP (proj1 (HL ph p Hph Hp)) Hk HC) as (r & Hr & ->). unfold get_nodal_gsd in E. apply bind_ok in E. destruct E as (G1 & E & _).
  unfold points_r in E. apply bind_ok in E. destruct E as ((L1 & G2) & E & _).
  apply (points_rel _ (fun t : grid R => gm t = gm G) (fun _ p _ => forall r, (r < 4)%nat ->
     ~ p_Mtol P < nth (corner_node (pG P) (cell_node (pG P) (px p)) r) (gm G) 0)) in E; [| reflexivity |].
  - destruct E as [_ E]. unfold Lrel in E. clear - E Hph Hp Hr Hh. induction E as [|a b l l' (_ & _ & _ & F & _) _ IH]; [contradiction|].
    destruct Hph as [->|Hph]; [|exact (IH Hph)]. clear - F Hp Hr Hh. induction F as [|x y l l' H _ IH]; [contradiction|].
    destruct Hp as [->|Hp]; [exact (H r Hr Hh)|exact (IH Hp)].
  - intros _ ph0 p0 t p' t' A B HI Hf. apply bind_ok in Hf. destruct Hf as (t1 & Ht & Hf). injection Hf as <- <-.
    pose proof (HL ph0 p0 A B) as (D & EN & _). unfold update_nodal_gsd in Ht.
    apply (four_acc P (pnstar p0) _ (fun t : grid R => gm t = gm G) (fun r => ~ p_Mtol P < nth (corner_node (pG P) (cell_node (pG P) (px p0)) r) (gm G) 0)
      (fun _ => 0) (fun _ => 0)) in Ht; [destruct Ht as (X & Y & _); auto|exact HI|].
    intros r0 u u' Hr0 HU Hf. rewrite EN in Hf. rewrite HU in Hf.
    rewrite (py_get_some _ _ (corner_node (pG P) (cell_node (pG P) (px p0)) r0) 0) in Hf.
    2:{ rewrite HM. apply corner_in_range; assumption. }
    cbn [bind] in Hf. destruct (nltb (p_Mtol P) _) eqn:EB in Hf; [discriminate|]. injection Hf as <-. split; [exact HU|]. split; [|lra].
    intros Q. apply Rltb_true in Q. cbn [nltb Num_R] in EB. congruence.
Qed.
(** map_gsd_to_mp interpolates the nodal sizes. *)
Lemma p_C70_back : forall (P : params R) G p s, proper (pG P) -> located (pG P) p -> length (gm G) = nodes (pG P) -> length (g_sbar G) = nodes (pG P) ->
  map_gsd_to_mp P G p = Ok s ->
  s = fsum (nodes (pG P)) (fun k => hat (pG P) (px p) k * (if Rlt_dec (p_Mtol P) (nth k (gm G) 0) then nth k (g_sbar G) 0 else 0)).
Proof.
  intros P G p s HP HL HM HS E. pose proof HL as (D & EN & _). unfold map_gsd_to_mp in E.
  set (f := fun k => if Rlt_dec (p_Mtol P) (nth k (gm G) 0) then nth k (g_sbar G) 0 else 0).
  apply (four_acc P (pnstar p) _ (fun _ => True) (fun _ => True) (fun x => x)
    (fun r => Nr p r * f (corner_node (pG P) (cell_node (pG P) (px p)) r))) in E; [|exact I|].
  - destruct E as (_ & _ & ->). change (fun k => hat (pG P) (px p) k * (if Rlt_dec (p_Mtol P) (nth k (gm G) 0) then nth k (g_sbar G) 0 else 0)) with (fun k => hat (pG P) (px p) k * f k).
    rewrite <- (corner_sum P p f HP HL). cbn [n0 Num_R]. rewrite Rplus_0_l.
    apply fsum_ext. intros r Hr. ring.
  - intros r t t' Hr _ Hf. split; [exact I|]. split; [exact I|]. rewrite EN in Hf.
    rewrite (py_get_some _ _ (corner_node (pG P) (cell_node (pG P) (px p)) r) 0) in Hf by (rewrite HM; apply corner_in_range; assumption).
    cbn [bind] in Hf. unfold f. destruct (Rlt_dec _ _) as [Q|Q].
    + cbn [nltb Num_R] in Hf. rewrite (proj2 (Rltb_true _ _) Q) in Hf.
      rewrite (py_get_some _ _ (corner_node (pG P) (cell_node (pG P) (px p)) r) 0) in Hf by (rewrite HS; apply corner_in_range; assumption).
      cbn [bind] in Hf. injection Hf as <-. reflexivity.
    + cbn [nltb Num_R] in Hf. destruct (Rltb _ _) eqn:EB in Hf; [apply Rltb_true in EB; contradiction|]. injection Hf as <-. ring.
Qed.
(** add_to_boundary marks exactly the four nodes of the cell. *)
Lemma p_C71_mask : forall (P : params R) G p mk, proper (pG P) -> located (pG P) p -> length (bv G) = nodes (pG P) ->
  add_to_boundary P G p = Ok mk -> length mk = nodes (pG P) /\
  forall k, (k < nodes (pG P))%nat -> (nth k mk false = true <-> cell_corner (pG P) (px p) k).
Proof.
  intros P G p mk HP HL HB E. cut (length mk = nodes (pG P) /\
    forall k, nth k mk false = true <-> exists r, (r < 4)%nat /\ k = corner_node (pG P) (cell_node (pG P) (px p)) r).
  { intros [A B]. split; [exact A|]. intros k Hk. rewrite B. split; [|apply corner_found; auto; apply HL].
    intros (r & Hr & ->). apply corner_is_corner; auto. apply HL. } pose proof HL as (D & EN & _). unfold add_to_boundary in E.
  apply (four_ind P (pnstar p) _ (fun n (mk : list bool) => length mk = nodes (pG P) /\
    forall k, nth k mk false = true <-> exists r, (r < n)%nat /\ k = corner_node (pG P) (cell_node (pG P) (px p)) r)) in E; [exact E| |].
  - split; [rewrite map_length; exact HB|]. intros k. split; [|intros (r & H & _); lia]. intros H. exfalso.
    rewrite map_false in H. discriminate.
  - intros r t t' Hr (Ln & HI) Hf. rewrite EN in Hf.
    rewrite (py_upd_some _ _ (corner_node (pG P) (cell_node (pG P) (px p)) r)) in Hf by (rewrite Ln; apply corner_in_range; assumption).
    injection Hf as <-. split; [rewrite upd_length; exact Ln|]. intros k.
    assert (CR : (corner_node (pG P) (cell_node (pG P) (px p)) r < nodes (pG P))%nat) by (apply corner_colrow; assumption).
    destruct (Nat.eq_dec k (corner_node (pG P) (cell_node (pG P) (px p)) r)) as [->|N].
    + rewrite upd_nth_eq by lia. split; [intros _; exists r; auto|reflexivity].
    + rewrite upd_nth_ne by exact N. rewrite HI. split; intros (q & Q1 & Q2); exists q; (split; [|exact Q2]); [lia|].
      destruct (Nat.eq_dec q r) as [->|M]; [contradiction|lia].
Qed.

Lemma Rsum_zip_sub (a b : list R) : length a = length b -> Rsum (zipw (@nsub R _) a b) = Rsum a - Rsum b.
Proof.
  revert b. induction a as [|x a IH]; intros [|y b] E; try discriminate E; [cbn; lra|]. injection E as E.
  change (Rsum (zipw (@nsub R _) (x :: a) (y :: b))) with (x - y + Rsum (zipw (@nsub R _) a b)). rewrite IH by exact E.
  change (Rsum (x :: a)) with (x + Rsum a). change (Rsum (y :: b)) with (y + Rsum b). lra.
Qed.
Lemma Rsum_zip_add (a b : list R) : length a = length b -> Rsum (zipw (@nadd R _) a b) = Rsum a + Rsum b.
Proof.
  revert b. induction a as [|x a IH]; intros [|y b] E; try discriminate E; [cbn; lra|]. injection E as E.
  change (Rsum (zipw (@nadd R _) (x :: a) (y :: b))) with (x + y + Rsum (zipw (@nadd R _) a b)). rewrite IH by exact E.
  change (Rsum (x :: a)) with (x + Rsum a). change (Rsum (y :: b)) with (y + Rsum b). lra.
Qed.
Lemma Rsum_scaled r (l : list R) : Rsum (map (fun a => a * r) l) = Rsum l * r.
Proof. induction l as [|x l IH]; [cbn; lra|]. change (x * r + Rsum (map (fun a => a * r) l) = (x + Rsum l) * r). rewrite IH. lra. Qed.
Lemma filter_all {A} (l : list A) : filter (fun _ => true) l = l.
Proof. induction l; cbn; congruence. Qed.
Definition cut01 (x : R) : R := Rmax 0 (Rmin x 1).
Lemma clip01_cut (a : R) : clip01 a = cut01 a.
Proof.
  assert (B : forall x y, Rltb x y = if Rlt_dec x y then true else false).
  { intros x y. destruct (Rlt_dec x y) as [Q|Q]; [apply Rltb_true, Q|]. destruct (Rltb x y) eqn:E; [apply Rltb_true in E; contradiction|reflexivity]. }
  unfold clip01, cut01. cbn [nltb n0 n1 Num_R]. rewrite !B. unfold Rmax, Rmin.
  destruct (Rlt_dec a 0); cbv zeta.
  - destruct (Rlt_dec 1 0), (Rle_dec a 1); try lra. destruct (Rle_dec 0 a); lra.
  - destruct (Rlt_dec 1 a), (Rle_dec a 1); try lra; [destruct (Rle_dec 0 1)|destruct (Rle_dec 0 a)]; lra.
Qed.
Lemma zip_sum (f d : list R) : zipw (@nadd R _) f d = map (fun p => fst p + snd p) (combine f d).
Proof. revert d. induction f as [|x f IH]; intros [|y d]; try reflexivity. cbn. f_equal. apply IH. Qed.
Lemma norm_inc_sum : forall f d : list R, length f = length d ->
  Rsum (map cut01 (map (fun p => fst p + snd p) (combine f d))) <> 0 -> Rsum (norm_inc f d) = Rsum d.
Proof.
  intros f d E NZ. unfold norm_inc. rewrite <- zip_sum in NZ.
  change (fun a : R => if nfin a then clip01 a else a) with (fun a : R => clip01 a).
  set (x := zipw nadd f d) in *.
  change (filter (@nfin R _) x) with (filter (fun _ => true) x). rewrite filter_all.
  set (y := map (fun a => clip01 a) x). change (filter (@nfin R _) y) with (filter (fun _ => true) y). rewrite filter_all.
  rewrite !lsum_Rsum. assert (LX : length x = length f).
  { unfold x. rewrite zip_sum, map_length, combine_length. lia. }
  assert (Y : y = map cut01 x) by (apply map_ext, clip01_cut). rewrite <- Y in NZ.
  rewrite Rsum_zip_sub by (rewrite map_length; unfold y; rewrite map_length; exact LX).
  change (fun a : R => if nfin a then (a * (Rsum x / Rsum y))%num else a) with (fun a : R => a * (Rsum x / Rsum y)).
  rewrite Rsum_scaled. replace (Rsum y * (Rsum x / Rsum y)) with (Rsum x) by (field; exact NZ).
  unfold x. rewrite Rsum_zip_add by exact E. lra.
Qed.
Lemma norm_inc_length (f d : list R) : length f = length d -> length (norm_inc f d) = length d.
Proof.
  intros E. assert (Z : forall (g : R -> R -> R) a b, length (zipw g a b) = Nat.min (length a) (length b)).
  { intros g a. induction a as [|x a IH]; intros [|y b]; try reflexivity. cbn. f_equal. apply IH. }
  unfold norm_inc. rewrite Z, !map_length, Z. lia.
Qed.
(** normalise_phi_increment changes the total of no size class, as long as the
    clipped fractions of the class do not all vanish. *)
Lemma p_C72_total : forall (P : params R) G dphi k, (k < ns (pG P))%nat -> length (g_phi G) = length dphi ->
  Rsum (map (fun p => cut01 (nth k (fst p) 0 + nth k (snd p) 0)) (combine (g_phi G) dphi)) <> 0 ->
  Rsum (map (fun r => nth k r 0) (normalise_phi_increment P G dphi)) = Rsum (map (fun r => nth k r 0) dphi).
Proof.
  intros P G dphi k Hk HL NZ.
  assert (A : map (fun r => nth k r 0) (normalise_phi_increment P G dphi) = norm_inc (column k (g_phi G)) (column k dphi)).
  { set (c := norm_inc (column k (g_phi G)) (column k dphi)).
    assert (LC : length c = length dphi) by (unfold c; rewrite norm_inc_length; unfold column; rewrite !map_length; auto).
    unfold normalise_phi_increment. rewrite map_map. rewrite <- LC.
    transitivity (map (fun m => nth m c 0) (seq 0 (length c))).
    - apply map_ext_in. intros m Hm. apply in_seq in Hm. rewrite map_map.
      rewrite nth_map_seq' by exact Hk. reflexivity.
    - clear. induction c as [|x c IH]; [reflexivity|]. cbn. f_equal. rewrite <- seq_shift, map_map. exact IH. }
  rewrite A. apply norm_inc_sum; [unfold column; rewrite !map_length; exact HL|].
  intros Z. apply NZ. refine (eq_trans _ Z). f_equal. unfold column. cbn [n0 Num_R].
  clear. revert dphi. induction (g_phi G) as [|x f IH]; intros [|y d]; try reflexivity. cbn. f_equal. apply IH.
Qed.

Example x_C71_mask : exists (P : params R) G p mk, proper (pG P) /\ located (pG P) p /\ length (bv G) = nodes (pG P) /\ add_to_boundary P G p = Ok mk.
Proof.
  destruct (grid_init_ok (ex_gridp (T := R)) ex_bounds ex_proper) as (G & _ & HG).
  set (P := ex_params (T := R) ex_bounds).
  assert (E : exists mk, add_to_boundary P G ex_p_loc = Ok mk).
  { pose proof ex_p_located as HL. pose proof HL as (D & EN & _). unfold add_to_boundary.
    match goal with |- exists mk, four P _ ?f ?s = _ =>
      destruct (four_total P (pnstar ex_p_loc) f (fun mk : list bool => length mk = nodes (pG P)) s) as (mk & Q & _); [| |exists mk; exact Q] end.
    - rewrite map_length. apply HG.
    - intros r t Hr Ln. rewrite EN.
      rewrite (py_upd_some _ _ (corner_node (pG P) (cell_node (pG P) (px ex_p_loc)) r)) by (rewrite Ln; apply corner_in_range; [exact ex_proper|exact D|exact Hr]).
      eexists. split; [reflexivity|]. rewrite upd_length. exact Ln. }
  destruct E as [mk E]. exists P, G, ex_p_loc, mk. split; [exact ex_proper|]. split; [exact ex_p_located|]. split; [apply HG|exact E].
Qed.
