(** * Mapping between points and grid: accumulation lemmas. *)
From Coq Require Import ZArith Reals List Bool Arith Lra Lia.
From Verif Require Import State NumR Spec LibList LibR ModelGrid ModelConstit ModelParticle ModelMPList
  ProofsGrid.
Import ListNotations.
Local Open Scope R_scope.

(** ** One augmented assignment *)
Definition hit (n : nat) (i : Z) (k : nat) : R :=
  match pyi n i with Some k' => if Nat.eqb k k' then 1 else 0 | None => 0 end.

Lemma hit_sum n i k : pyi n i = Some k -> fsum n (hit n i) = 1.
Proof.
  intros. pose proof (pyi_lt _ _ _ H). unfold hit. rewrite H.
  apply fsum_delta; auto.
Qed.

Lemma upd_proj {A} (proj : A -> R) l i f l' w d :
  py_upd l i f = Ok l' -> (forall a, proj (f a) = proj a + w) ->
  forall k, proj (nth k l' d) = proj (nth k l d) + hit (length l) i k * w.
Proof.
  intros H Hf k. apply py_upd_ok in H. destruct H as (j & E & L & ->).
  unfold hit. rewrite E, upd_nth.
  destruct (Nat.eqb_spec k j); simpl.
  - subst. apply Nat.ltb_lt in L. rewrite L, Hf. lra.
  - lra.
Qed.

(** ** Loops that accumulate *)
Lemma four_ok {S} (P : params R) ns (f : S -> nat -> Z -> res S) s s' :
  four P ns f s = Ok s' ->
  exists s1 s2 s3,
    f s 0%nat (nearby ns 0 (nx (pG P))) = Ok s1 /\ f s1 1%nat (nearby ns 1 (nx (pG P))) = Ok s2 /\
    f s2 2%nat (nearby ns 2 (nx (pG P))) = Ok s3 /\ f s3 3%nat (nearby ns 3 (nx (pG P))) = Ok s'.
Proof.
  unfold four. cbn [foldM]. intros H. binds H. inv H. eauto 10.
Qed.

Lemma four_ind {S} (P : params R) ns (f : S -> nat -> Z -> res S) (I : nat -> S -> Prop) s s' :
  I 0%nat s ->
  (forall r s s', (r < 4)%nat -> I r s -> f s r (nearby ns r (nx (pG P))) = Ok s' -> I (Datatypes.S r) s') ->
  four P ns f s = Ok s' -> I 4%nat s'.
Proof.
  intros I0 Hs H. apply four_ok in H. destruct H as (s1 & s2 & s3 & H0 & H1 & H2 & H3).
  apply (Hs 3%nat s3); [lia| |auto]. apply (Hs 2%nat s2); [lia| |auto].
  apply (Hs 1%nat s1); [lia| |auto]. apply (Hs 0%nat s); [lia| |auto]. auto.
Qed.

Lemma four_acc {S} (P : params R) ns (f : S -> nat -> Z -> res S) (I : S -> Prop) (V : nat -> Prop)
      (obs : S -> R) (c : nat -> R) s s' :
  I s ->
  (forall r s s', (r < 4)%nat -> I s -> f s r (nearby ns r (nx (pG P))) = Ok s' ->
     I s' /\ V r /\ obs s' = obs s + c r) ->
  four P ns f s = Ok s' ->
  I s' /\ (forall r, (r < 4)%nat -> V r) /\ obs s' = obs s + fsum 4 c.
Proof.
  intros I0 Hs H.
  apply (four_ind P ns f (fun r s' => I s' /\ (forall r', (r' < r)%nat -> V r') /\ obs s' = obs s + fsum r c)) in H; auto.
  - split; [|split]; auto. lia. simpl; lra.
  - intros r t t' Hr (It & Vt & Ot) Hf. destruct (Hs _ _ _ Hr It Hf) as (I' & V' & O').
    split; [|split]; auto.
    + intros r' Hr'. destruct (Nat.eq_dec r' r); subst; auto. apply Vt; lia.
    + simpl. lra.
Qed.

(** Success of the loop from success of each pass. *)
Lemma four_total {S} (P : params R) ns (f : S -> nat -> Z -> res S) (I : S -> Prop) s :
  I s ->
  (forall r s, (r < 4)%nat -> I s -> exists s', f s r (nearby ns r (nx (pG P))) = Ok s' /\ I s') ->
  exists s', four P ns f s = Ok s' /\ I s'.
Proof.
  intros I0 Hs. unfold four. cbn [foldM].
  destruct (Hs 0%nat s) as (s1 & -> & I1); auto. cbn [bind].
  destruct (Hs 1%nat s1) as (s2 & -> & I2); auto. cbn [bind].
  destruct (Hs 2%nat s2) as (s3 & -> & I3); auto. cbn [bind].
  destruct (Hs 3%nat s3) as (s4 & -> & I4); auto. cbn [bind]. eauto.
Qed.

Lemma each_acc {S A} (f : A -> S -> res (A * S)) (I : S -> Prop) (obs : S -> R) (c : A -> R) n :
  forall l s l' s',
  I s ->
  (forall a s a' s', In a (firstn n l) -> I s -> f a s = Ok (a', s') -> I s' /\ obs s' = obs s + c a) ->
  each n f l s = Ok (l', s') ->
  I s' /\ obs s' = obs s + Rsum (map c (firstn n l)).
Proof.
  induction n; simpl; intros l s l' s' I0 Hs H.
  - inv H. split; auto. simpl; lra.
  - destruct l as [|a l]; [discriminate|].
    pbinds H. injection H as <- <-. simpl.
    destruct (Hs a s b b0) as [I1 O1]; auto. left; auto.
    destruct (IHn l b0 b1 b2) as [I2 O2]; auto.
    { intros. eapply Hs; eauto. right; auto. }
    split; auto. lra.
Qed.

Lemma forM_acc {S A} (f : nat -> A -> S -> res (A * S)) (I : S -> Prop) (obs : S -> R) (c : A -> R) l :
  forall k s l' s',
  I s ->
  (forall k a s a' s', In a l -> I s -> f k a s = Ok (a', s') -> I s' /\ obs s' = obs s + c a) ->
  forM f k l s = Ok (l', s') ->
  I s' /\ obs s' = obs s + Rsum (map c l).
Proof.
  induction l as [|a l IH]; simpl; intros k s l' s' I0 Hs H.
  - inv H. split; auto. lra.
  - pbinds H. injection H as <- <-.
    destruct (Hs k a s b b0) as [I1 O1]; auto.
    destruct (IH (Datatypes.S k) b0 b1 b2) as [I2 O2]; auto.
    { intros. eapply Hs; eauto. }
    split; auto. lra.
Qed.

Lemma points_acc {S} (f : nat -> phase R -> particle R -> S -> res (particle R * S))
      (I : S -> Prop) (obs : S -> R) (c : phase R -> particle R -> R) L s L' s' :
  I s ->
  (forall k ph p s p' s', In ph L -> In p (live ph) -> I s -> f k ph p s = Ok (p', s') ->
     I s' /\ obs s' = obs s + c ph p) ->
  points f L s = Ok (L', s') ->
  I s' /\ obs s' = obs s + psum L c.
Proof.
  intros I0 Hs H. unfold points in H.
  eapply (forM_acc _ I obs (fun ph => Rsum (map (c ph) (live ph)))) in H; eauto.
  intros k ph t ph' t' Hin It Hf. pbinds Hf. inv Hf.
  eapply (each_acc _ I obs (c ph)) in E; eauto.
Qed.

Lemma points_r_acc {S} (f : nat -> phase R -> particle R -> S -> res S)
      (I : S -> Prop) (obs : S -> R) (c : phase R -> particle R -> R) L s s' :
  I s ->
  (forall k ph p s s', In ph L -> In p (live ph) -> I s -> f k ph p s = Ok s' ->
     I s' /\ obs s' = obs s + c ph p) ->
  points_r f L s = Ok s' ->
  I s' /\ obs s' = obs s + psum L c.
Proof.
  intros I0 Hs H. unfold points_r in H. pbinds H. inv H.
  eapply (points_acc _ I obs c) in E; eauto.
  intros k ph p t p' t' Hin Hp It Hf. pbinds Hf. inv Hf. eauto.
Qed.

(** ** Point loops that change the points: relations *)
Definition Lrel {T} (R1 : phase T -> particle T -> particle T -> Prop) (L L' : list (phase T)) : Prop :=
  Forall2 (fun ph ph' => ph_sol ph' = ph_sol ph /\ ph_n ph' = ph_n ph /\ ph_sv ph' = ph_sv ph /\
                         Forall2 (R1 ph) (live ph) (live ph') /\
                         length (ph_pts ph') = length (ph_pts ph)) L L'.

Lemma each_live {S A} (f : A -> S -> res (A * S)) (I : S -> Prop) (R1 : A -> A -> Prop) n :
  forall l s l' s',
  I s ->
  (forall a s a' s', In a (firstn n l) -> I s -> f a s = Ok (a', s') -> I s' /\ R1 a a') ->
  each n f l s = Ok (l', s') ->
  I s' /\ Forall2 R1 (firstn n l) (firstn n l') /\ length l' = length l /\ skipn n l' = skipn n l.
Proof.
  induction n; simpl; intros l s l' s' I0 Hs H.
  - inv H. auto.
  - destruct l as [|a l]; [discriminate|].
    pbinds H. injection H as <- <-.
    destruct (Hs a s b b0) as [I1 O1]; auto. left; auto.
    destruct (IHn l b0 b1 b2) as (I2 & O2 & L2 & K2); auto.
    { intros. eapply Hs; eauto. right; auto. }
    simpl. repeat split; auto.
Qed.

Lemma points_rel {T} {S} (f : nat -> phase T -> particle T -> S -> res (particle T * S))
      (I : S -> Prop) (R1 : phase T -> particle T -> particle T -> Prop) L s L' s' :
  I s ->
  (forall k ph p s p' s', In ph L -> In p (live ph) -> I s -> f k ph p s = Ok (p', s') ->
     I s' /\ R1 ph p p') ->
  points f L s = Ok (L', s') ->
  I s' /\ Lrel R1 L L'.
Proof.
  intros I0 Hs H. unfold points in H.
  eapply (forM_rel _ I (fun ph ph' => ph_sol ph' = ph_sol ph /\ ph_n ph' = ph_n ph /\ ph_sv ph' = ph_sv ph /\
                         Forall2 (R1 ph) (live ph) (live ph') /\
                         length (ph_pts ph') = length (ph_pts ph))) in H; eauto.
  intros k ph t ph' t' Hin It Hf. pbinds Hf. inv Hf.
  eapply (each_live _ I (R1 ph)) in E; eauto.
  destruct E as (I2 & F & Ln & _). repeat split; auto.
Qed.

Lemma points__rel {T} (f : nat -> phase T -> particle T -> res (particle T))
      (R1 : phase T -> particle T -> particle T -> Prop) L L' :
  (forall k ph p p', In ph L -> In p (live ph) -> f k ph p = Ok p' -> R1 ph p p') ->
  points_ f L = Ok L' -> Lrel R1 L L'.
Proof.
  intros Hs H. unfold points_ in H. pbinds H. inv H.
  eapply (points_rel _ (fun _ => True) R1) in E; auto.
  - destruct E; auto.
  - intros k ph p t p' t' Hin Hp _ Hf. pbinds Hf. inv Hf. eauto.
Qed.

Lemma Lrel_all_live {T} (R1 : phase T -> particle T -> particle T -> Prop) L L' (Q Q' : phase T -> particle T -> Prop) :
  Lrel R1 L L' ->
  (forall ph p ph' p', In ph L -> In p (live ph) -> ph_sol ph' = ph_sol ph -> ph_n ph' = ph_n ph -> ph_sv ph' = ph_sv ph ->
     R1 ph p p' -> Q ph p -> Q' ph' p') ->
  all_live L Q -> all_live L' Q'.
Proof.
  unfold all_live. induction 1 as [|ph ph' L L' (E1 & E2 & E3 & F & Ln) HL IH]; simpl; intros Hs HQ.
  - intros ? ? [].
  - intros ph1 p1 [<-|Hin] Hp.
    + assert (exists p, In p (live ph) /\ R1 ph p p1).
      { clear - F Hp. induction F; simpl in *; [tauto|]. destruct Hp; [subst; eauto|].
        destruct IHF as (q & ? & ?); eauto. }
      destruct H as (p & Hp0 & HR). eapply Hs; eauto.
    + eapply IH; eauto.
Qed.

Lemma Lrel_psum (R1 : phase R -> particle R -> particle R -> Prop) L L' c c' :
  Lrel R1 L L' ->
  (forall ph p ph' p', In ph L -> In p (live ph) -> ph_sol ph' = ph_sol ph -> ph_n ph' = ph_n ph -> ph_sv ph' = ph_sv ph ->
     R1 ph p p' -> c ph p = c' ph' p') ->
  psum L c = psum L' c'.
Proof.
  unfold psum. induction 1 as [|ph ph' L L' (E1 & E2 & E3 & F & Ln) HL IH]; simpl; intros Hs; auto.
  rewrite IH by (intros; eapply Hs; eauto). f_equal.
  assert (forall p p', In p (live ph) -> R1 ph p p' -> c ph p = c' ph' p') by (intros; eapply Hs; eauto).
  clear - F H. induction F; simpl; auto. rewrite (H x y), IHF; auto.
  - intros; apply H; auto. right; auto.
  - left; auto.
Qed.

Lemma Lrel_trans {T} (R1 R2 R3 : phase T -> particle T -> particle T -> Prop) L L' L'' :
  Lrel R1 L L' -> Lrel R2 L' L'' ->
  (forall ph ph' p p' p'', In ph L -> In p (live ph) -> ph_sol ph' = ph_sol ph -> ph_sv ph' = ph_sv ph ->
    R1 ph p p' -> R2 ph' p' p'' -> R3 ph p p'') ->
  Lrel R3 L L''.
Proof.
  intros H. revert L''. induction H as [|ph ph' L L' (E1 & E2 & E3 & F & Ln) HL IH]; intros L'' H2 Hs.
  - inv H2. constructor.
  - inv H2. destruct H1 as (A1 & A2 & A3 & F' & Ln').
    constructor.
    + repeat split; try congruence.
      assert (HH : forall p p' p'', In p (live ph) -> R1 ph p p' -> R2 ph' p' p'' -> R3 ph p p'').
      { intros; eapply Hs; eauto. left; auto. }
      clear - F F' HH. revert F'. generalize (live y). induction F; intros ll F'.
      * inv F'. constructor.
      * inv F'. constructor; [eapply HH; eauto; left; auto|].
        apply IHF; auto. intros; eapply HH; eauto. right; auto.
    + apply IH; auto. intros; eapply Hs; eauto. right; auto.
Qed.

Lemma Lrel_impl {T} (R1 R2 : phase T -> particle T -> particle T -> Prop) L L' :
  Lrel R1 L L' ->
  (forall ph p p', In ph L -> In p (live ph) -> R1 ph p p' -> R2 ph p p') -> Lrel R2 L L'.
Proof.
  induction 1 as [|ph ph' L L' (E1 & E2 & E3 & F & Ln) HL IH]; intros Hs; constructor.
  - repeat split; auto.
    assert (HH : forall p p', In p (live ph) -> R1 ph p p' -> R2 ph p p') by (intros; eapply Hs; eauto; left; auto).
    clear - F HH. induction F; constructor; auto.
    + apply HH; auto. left; auto.
    + apply IHF. intros; apply HH; auto. right; auto.
  - apply IH. intros. apply Hs; auto. right; auto.
Qed.

(** ** Mass and momentum *)
Section P2G.
  Context (P : params R).
  Let N := nodes (pG P).
  Let nxx := nx (pG P).

  (** Total weight with which a point acts on node [k]. *)
  Definition wt (p : particle R) (k : nat) : R :=
    fsum 4 (fun r => hit N (nearby (pnstar p) r nxx) k * Nr p r).

  Definition reaches (p : particle R) : Prop :=
    forall r, (r < 4)%nat -> exists k, pyi N (nearby (pnstar p) r nxx) = Some k.

  Lemma reaches_sum p w : reaches p ->
    fsum N (fun k => fsum 4 (fun r => hit N (nearby (pnstar p) r nxx) k * w r)) = fsum 4 w.
  Proof.
    intros H. rewrite fsum_swap. apply fsum_ext. intros r Hr.
    rewrite fsum_scal_r. destruct (H r Hr) as [k E]. rewrite (hit_sum _ _ _ E). lra.
  Qed.

  Definition frame_p2g (G G' : grid R) : Prop :=
    G' = G <| gm := gm G' |> <| gq := gq G' |> <| g_phim := g_phim G' |> <| g_pkm := g_pkm G' |>.

  Definition p2g_lens (G : grid R) : Prop :=
    length (gm G) = N /\ length (gq G) = N /\
    (p_seg P = true -> length (g_phim G) = N /\ length (g_pkm G) = N).

  Lemma row_add_nth (a b c : list R) j : row_add a b = Ok c -> nth j c 0 = nth j a 0 + nth j b 0.
  Proof.
    unfold row_add. destruct (Nat.eqb_spec (length a) (length b)); intros; inv H.
    destruct (Nat.lt_ge_cases j (length a)).
    - rewrite (zipw_nth _ _ _ _ 0 0 0) by lia. reflexivity.
    - rewrite !nth_overflow; try lra; try lia. rewrite zipw_length; lia.
  Qed.

  Lemma p2g_inv sv p G G' : p2g_lens G -> p2g P sv p G = Ok G' ->
    frame_p2g G G' /\ p2g_lens G' /\ reaches p.
  Proof.
    intros HL H. unfold p2g in H.
    apply (four_acc P (pnstar p) _ (fun G' => frame_p2g G G' /\ p2g_lens G')
             (fun r => exists k, pyi N (nearby (pnstar p) r nxx) = Some k) (fun _ => 0) (fun _ => 0)) in H.
    - destruct H as ((F & L) & V & _). split; auto.
    - split; auto. destruct G; reflexivity.
    - intros r t t' Hr (F & L1 & L2 & L3) Hf. pbinds Hf.
      pose proof (py_upd_length _ _ _ _ E) as Lm. pose proof (py_upd_length _ _ _ _ E0) as Lq.
      apply py_upd_ok in E. destruct E as (k & Ek & _ & _). rewrite L1 in Ek.
      destruct (p_seg P) eqn:SEG.
      + pbinds Hf. inv Hf. destruct L3 as [L3 L4]; auto.
        apply py_upd_length in E2. apply py_upd_length in E3.
        cbn in E2, E3.
        split; [split|split; [eauto|lra]].
        * unfold frame_p2g in *. cbn. rewrite F. reflexivity.
        * unfold p2g_lens. cbn. rewrite Lm, Lq, E2, E3. auto.
      + inv Hf. split; [split|split; [eauto|lra]].
        * unfold frame_p2g in *. cbn. rewrite F. reflexivity.
        * unfold p2g_lens. cbn. rewrite SEG. rewrite Lm, Lq. split; [auto|]. split; [auto|]. discriminate.
  Qed.

  Lemma p2g_mass sv p G G' k : p2g_lens G -> p2g P sv p G = Ok G' ->
    nth k (gm G') 0 = nth k (gm G) 0 + pm p * wt p k.
  Proof.
    intros HL H. unfold p2g in H.
    apply (four_acc P (pnstar p) _ (fun G' => length (gm G') = N)
             (fun r => True) (fun G => nth k (gm G) 0)
             (fun r => hit N (nearby (pnstar p) r nxx) k * (Nr p r * pm p))) in H.
    - destruct H as (_ & _ & H). rewrite H. f_equal. unfold wt.
      rewrite <- fsum_scal. apply fsum_ext. intros; lra.
    - apply HL.
    - intros r t t' Hr L1 Hf. pbinds Hf.
      pose proof (py_upd_length _ _ _ _ E) as Lm.
      pose proof (upd_proj (fun x => x) _ _ _ _ (Nr p r * pm p) 0 E) as U. rewrite L1 in U.
      assert (EG : gm t' = a).
      { destruct (p_seg P); pbinds Hf; inv Hf; reflexivity. }
      rewrite EG, Lm. split; [auto|]. split; [auto|]. apply U. intros; reflexivity.
  Qed.

  Lemma p2g_mom sv p G G' k a : p2g_lens G -> p2g P sv p G = Ok G' ->
    comp a (nth k (gq G') v0) = comp a (nth k (gq G) v0) + pm p * wt p k * comp a (vel sv p).
  Proof.
    intros HL H. unfold p2g in H.
    apply (four_acc P (pnstar p) _ (fun G' => length (gq G') = N)
             (fun r => True) (fun G => comp a (nth k (gq G) v0))
             (fun r => hit N (nearby (pnstar p) r nxx) k * (Nr p r * pm p * comp a (vel sv p)))) in H.
    - destruct H as (_ & _ & H). rewrite H. f_equal. unfold wt.
      rewrite Rmult_assoc, (Rmult_comm _ (comp a _)), <- Rmult_assoc, <- fsum_scal.
      apply fsum_ext. intros; lra.
    - apply HL.
    - intros r t t' Hr L1 Hf. pbinds Hf.
      pose proof (py_upd_length _ _ _ _ E0) as Lm.
      pose proof (upd_proj (comp a) _ _ _ _ (Nr p r * pm p * comp a (vel sv p)) v0 E0) as U. rewrite L1 in U.
      assert (EG : gq t' = a1).
      { destruct (p_seg P); pbinds Hf; inv Hf; reflexivity. }
      rewrite EG, Lm. split; [auto|]. split; [auto|]. apply U. intros.
      rewrite comp_vadd, comp_vscale. reflexivity.
  Qed.

  Lemma p2g_phim sv p G G' k j : p2g_lens G -> p_seg P = true -> p2g P sv p G = Ok G' ->
    nth j (nth k (g_phim G') []) 0 = nth j (nth k (g_phim G) []) 0 + pm p * wt p k * nth j (pphi p) 0.
  Proof.
    intros HL SEG H. unfold p2g in H.
    apply (four_acc P (pnstar p) _ (fun G' => length (g_phim G') = N)
             (fun r => True) (fun G => nth j (nth k (g_phim G) []) 0)
             (fun r => hit N (nearby (pnstar p) r nxx) k * (Nr p r * pm p * nth j (pphi p) 0))) in H.
    - destruct H as (_ & _ & H). rewrite H. f_equal. unfold wt.
      rewrite Rmult_assoc, (Rmult_comm _ (nth j _ _)), <- Rmult_assoc, <- fsum_scal.
      apply fsum_ext. intros; lra.
    - apply HL; auto.
    - intros r t t' Hr L1 Hf. rewrite SEG in Hf. pbinds Hf. inv Hf. cbn in *.
      pose proof (py_upd_length _ _ _ _ E3) as Lm. split; [congruence|]. split; auto.
      pose proof (row_add_nth _ _ _ j E2) as RA.
      apply py_upd_ok in E3. destruct E3 as (k' & Ek & Lk & ->).
      apply py_get_ok with (d := []) in E1. destruct E1 as (k'' & Ek' & _ & Er).
      rewrite Ek in Ek'. inv Ek'.
      unfold hit. rewrite L1 in Ek. fold nxx in Ek. rewrite Ek. rewrite upd_nth.
      destruct (Nat.eqb_spec k k''); simpl.
      + subst. apply Nat.ltb_lt in Lk. rewrite Lk, RA.
        f_equal. rewrite Rmult_1_l.
        destruct (Nat.lt_ge_cases j (length (pphi p))).
        * rewrite nth_map_lt with (d := 0) by auto. reflexivity.
        * rewrite !nth_overflow by (rewrite ?map_length; auto). lra.
      + lra.
  Qed.

  (** ** The loop over all points *)
  Definition mass_at (L : list (phase R)) k := psum L (fun _ p => pm p * wt p k).
  Definition mom_at (L : list (phase R)) a k :=
    psum L (fun ph p => pm p * wt p k * comp a (velocity ph p)).

  (** The grid after the loop of mplist.py:130-135, before wall conditions. *)
  Definition p2g_loop (L : list (phase R)) (G : grid R) : res (list (phase R) * grid R) :=
    forM (fun _ ph G =>
        '(_, G) <- each (ph_n ph) (fun p G => G <- p2g P (ph_sv ph) p G ;; Ok (p, G)) (ph_pts ph) G ;;
        Ok (ph, if p_seg P then G <| g_phi := node_fractions G |> else G)) 0 L G.

  Definition frame_loop (G G' : grid R) : Prop :=
    G' = G <| gm := gm G' |> <| gq := gq G' |> <| g_phim := g_phim G' |> <| g_pkm := g_pkm G' |>
           <| g_phi := g_phi G' |>.

  Lemma p2g_loop_acc L G L' G' (obs : grid R -> R) (c : phase R -> particle R -> R) :
    p2g_lens G ->
    (forall ph p G G', In ph L -> In p (live ph) -> p2g_lens G -> p2g P (ph_sv ph) p G = Ok G' ->
       obs G' = obs G + c ph p) ->
    (forall G l, obs (G <| g_phi := l |>) = obs G) ->
    p2g_loop L G = Ok (L', G') ->
    frame_loop G G' /\ p2g_lens G' /\ obs G' = obs G + psum L c.
  Proof.
    intros HL Hobs Hphi H. unfold p2g_loop in H.
    apply (forM_acc _ (fun G' => frame_loop G G' /\ p2g_lens G') obs
             (fun ph => Rsum (map (c ph) (live ph)))) in H.
    - destruct H as ((F & L2) & O). split; auto.
    - split; auto. destruct G; reflexivity.
    - intros k ph t ph' t' Hin (F & L2) Hf. pbinds Hf. injection Hf as <- <-.
      apply (each_acc _ (fun G' => frame_loop G G' /\ p2g_lens G') obs (c ph)) in E; auto.
      + destruct E as ((F3 & L3) & O3).
        destruct (p_seg P) eqn:SEG.
        * rewrite Hphi. split; auto. split.
          -- unfold frame_loop in *. cbn. rewrite F3. reflexivity.
          -- exact L3.
        * auto.
      + intros p u p' u' Hp (Fu & Lu) Hf. pbinds Hf. injection Hf as <- <-.
        rewrite (Hobs ph p u _ Hin Hp Lu E0). split; auto.
        destruct (p2g_inv _ _ _ _ Lu E0) as (F4 & L4 & _). split; auto.
        unfold frame_loop, frame_p2g in *. rewrite F4. cbn. rewrite Fu. reflexivity.
  Qed.

  Lemma p2g_loop_reaches L G L' G' : p2g_lens G ->
    p2g_loop L G = Ok (L', G') -> all_live L (fun _ p => reaches p).
  Proof.
    unfold p2g_loop. generalize 0%nat. revert G L'.
    induction L as [|ph L IH]; intros G L' k HL H; simpl in H.
    - intros ? ? [].
    - pbinds H. injection H as <- <-. pbinds E. injection E as <- <-.
      assert (A : forall n l G l' G', p2g_lens G ->
        each n (fun p G => G <- p2g P (ph_sv ph) p G ;; Ok (p, G)) l G = Ok (l', G') ->
        p2g_lens G' /\ forall p, In p (firstn n l) -> reaches p).
      { clear. induction n; simpl; intros l G l' G' HL H.
        - inv H. split; auto. intros ? [].
        - destruct l; [discriminate|]. pbinds H. injection H as <- <-. pbinds E. injection E as <- <-.
          destruct (p2g_inv _ _ _ _ HL E1) as (_ & L4 & R4).
          destruct (IHn _ _ _ _ L4 E0) as [L5 R5]. split; [exact L5|].
          intros q [<-|Hq]; [exact R4 | apply R5; auto]. }
      destruct (A _ _ _ _ _ HL E1) as [L5 R5].
      assert (L6 : p2g_lens (if p_seg P then b4 <| g_phi := node_fractions b4 |> else b4)).
      { destruct (p_seg P); exact L5. }
      specialize (IH _ _ _ L6 E0).
      intros ph' p [<-|Hin] Hp; auto. eapply IH; eauto.
  Qed.

  Lemma p2g_loop_spec L G L' G' : p2g_lens G -> p2g_loop L G = Ok (L', G') ->
    frame_loop G G' /\ p2g_lens G' /\ all_live L (fun _ p => reaches p) /\
    (forall k, nth k (gm G') 0 = nth k (gm G) 0 + mass_at L k) /\
    (forall a k, comp a (nth k (gq G') v0) = comp a (nth k (gq G) v0) + mom_at L a k).
  Proof.
    intros HL H.
    destruct (p2g_loop_acc L G L' G' (fun _ => 0) (fun _ _ => 0) HL) as (F & L2 & _); auto; try (intros; lra).
    split; [auto|]. split; [auto|]. split; [|split].
    - exact (p2g_loop_reaches _ _ _ _ HL H).
    - intros k. eapply (p2g_loop_acc L G L' G' (fun G => nth k (gm G) 0)) in H; auto.
      + apply H.
      + intros. cbv beta. apply p2g_mass with (sv := ph_sv ph); auto.
    - intros a k. eapply (p2g_loop_acc L G L' G' (fun G => comp a (nth k (gq G) v0))) in H; auto.
      + apply H.
      + intros. cbv beta. apply p2g_mom; auto.
  Qed.

  Lemma p2g_all_loop L G G' : p2g_all P L G = Ok G' ->
    exists L1 G1, p2g_loop L G = Ok (L1, G1) /\ gm G' = gm G1 /\
      gq G' = (let q := mask_y (bh G1) (mask_x (bv G1) (gq G1)) in
               if roughness (pB P) then mask_y (bv G1) (mask_x (bh G1) q) else q) /\
      (p_seg P = false -> G' = G1 <| gq := gq G' |>) /\
      G' = G1 <| gq := gq G' |> <| g_phi := g_phi G' |> <| g_sbar := g_sbar G' |> <| g_pk := g_pk G' |>.
  Proof.
    intros H. unfold p2g_all in H. pbinds H. inv H.
    exists b, b0. split; [exact E|].
    destruct (p_seg P).
    - cbn. repeat split; auto. discriminate.
    - cbn. destruct b0; repeat split; auto.
  Qed.
End P2G.
