(** * Sums of reals. *)
From Coq Require Import ZArith Reals List Arith Lra Lia Permutation.
From Verif Require Import State NumR Spec LibList.
Import ListNotations.
Local Open Scope R_scope.

Lemma fsum_ext n f g : (forall i, (i < n)%nat -> f i = g i) -> fsum n f = fsum n g.
Proof. induction n; simpl; intros; auto. rewrite IHn, H; auto. Qed.
Lemma fsum_plus n f g : fsum n (fun i => f i + g i) = fsum n f + fsum n g.
Proof. induction n; simpl; [lra|]. rewrite IHn; lra. Qed.
Lemma fsum_minus n f g : fsum n (fun i => f i - g i) = fsum n f - fsum n g.
Proof. induction n; simpl; [lra|]. rewrite IHn; lra. Qed.
Lemma fsum_scal n c f : fsum n (fun i => c * f i) = c * fsum n f.
Proof. induction n; simpl; [lra|]. rewrite IHn; lra. Qed.
Lemma fsum_scal_r n c f : fsum n (fun i => f i * c) = fsum n f * c.
Proof. induction n; simpl; [lra|]. rewrite IHn; lra. Qed.
Lemma fsum_zero n f : (forall i, (i < n)%nat -> f i = 0) -> fsum n f = 0.
Proof. induction n; simpl; intros; auto. rewrite IHn, H; auto; lra. Qed.
Lemma fsum_const n c : fsum n (fun _ => c) = INR n * c.
Proof. induction n. simpl; lra. rewrite S_INR. simpl fsum. rewrite IHn. lra. Qed.
Lemma fsum_le n f g : (forall i, (i < n)%nat -> f i <= g i) -> fsum n f <= fsum n g.
Proof.
  induction n; simpl; intros; [lra|]. apply Rplus_le_compat; auto.
Qed.
Lemma fsum_nonneg n f : (forall i, (i < n)%nat -> 0 <= f i) -> 0 <= fsum n f.
Proof. intros. rewrite <- (fsum_zero n (fun _ => 0)) by auto. apply fsum_le; auto. Qed.
Lemma fsum_delta n i w : (i < n)%nat -> fsum n (fun k => if Nat.eqb k i then w else 0) = w.
Proof.
  induction n; intros; [lia|]. simpl.
  destruct (Nat.eqb_spec n i).
  - subst. rewrite fsum_zero; [lra|]. intros k Hk. destruct (Nat.eqb_spec k i); [lia|auto].
  - rewrite IHn by lia. lra.
Qed.
Lemma fsum_single n i f : (i < n)%nat -> (forall k, (k < n)%nat -> k <> i -> f k = 0) -> fsum n f = f i.
Proof.
  intros. rewrite <- (fsum_delta n i (f i)) by auto. apply fsum_ext. intros.
  destruct (Nat.eqb_spec i0 i); subst; auto.
Qed.
Lemma fsum_swap n m f : fsum n (fun i => fsum m (fun j => f i j)) = fsum m (fun j => fsum n (fun i => f i j)).
Proof.
  induction n; simpl.
  - rewrite fsum_zero; auto.
  - rewrite IHn, fsum_plus. auto.
Qed.
Lemma fsum_S n f : fsum (S n) f = f 0%nat + fsum n (fun i => f (S i)).
Proof. induction n; simpl in *; [lra|]. rewrite IHn. lra. Qed.
Lemma fsum_split n m f : fsum (n + m) f = fsum n f + fsum m (fun i => f (n + i)%nat).
Proof.
  induction m; simpl.
  - rewrite Nat.add_0_r; lra.
  - rewrite Nat.add_succ_r. simpl. rewrite IHm. lra.
Qed.
(** Sum over a grid as a double sum over rows and columns. *)
Lemma fsum_rows nx ny f :
  fsum (ny * nx) f = fsum ny (fun j => fsum nx (fun i => f (j * nx + i)%nat)).
Proof.
  induction ny; simpl; auto.
  rewrite Nat.add_comm, fsum_split, IHny. auto.
Qed.
Lemma fsum_tele n f : fsum n (fun i => f (S i) - f i) = f n - f 0%nat.
Proof. induction n; simpl; [lra|]. rewrite IHn. lra. Qed.

Lemma Rsum_app l m : Rsum (l ++ m) = Rsum l + Rsum m.
Proof. induction l; simpl; [lra|]. rewrite IHl; lra. Qed.
Lemma Rsum_fsum l : Rsum l = fsum (length l) (fun i => nth i l 0).
Proof.
  induction l; auto. cbn [length]. rewrite fsum_S. simpl. rewrite IHl. auto.
Qed.
Lemma Rsum_ext {A} (f g : A -> R) l : (forall a, In a l -> f a = g a) -> Rsum (map f l) = Rsum (map g l).
Proof. intros. f_equal. apply map_ext_in. auto. Qed.
Lemma Rsum_plus {A} (f g : A -> R) l : Rsum (map (fun a => f a + g a) l) = Rsum (map f l) + Rsum (map g l).
Proof. induction l; simpl; [lra|]. rewrite IHl; lra. Qed.
Lemma Rsum_scal {A} c (f : A -> R) l : Rsum (map (fun a => c * f a) l) = c * Rsum (map f l).
Proof. induction l; simpl; [lra|]. rewrite IHl; lra. Qed.
Lemma Rsum_zero {A} (f : A -> R) l : (forall a, In a l -> f a = 0) -> Rsum (map f l) = 0.
Proof. induction l; simpl; intros; auto. rewrite H, IHl; auto. lra. Qed.
Lemma Rsum_le {A} (f g : A -> R) l : (forall a, In a l -> f a <= g a) -> Rsum (map f l) <= Rsum (map g l).
Proof. induction l; simpl; intros; [lra|]. apply Rplus_le_compat; auto. Qed.
Lemma Rsum_nonneg {A} (f : A -> R) l : (forall a, In a l -> 0 <= f a) -> 0 <= Rsum (map f l).
Proof. intros. rewrite <- (Rsum_zero (fun _ : A => 0) l) by auto. apply Rsum_le; auto. Qed.
Lemma Rsum_ge_elem {A} (f : A -> R) l a :
  (forall a, In a l -> 0 <= f a) -> In a l -> f a <= Rsum (map f l).
Proof.
  induction l; simpl; intros; [tauto|].
  destruct H0.
  - subst. pose proof (Rsum_nonneg f l). assert (0 <= Rsum (map f l)) by (apply H0; auto). lra.
  - specialize (H a0 (or_introl eq_refl)) as H1. specialize (IHl (fun a h => H a (or_intror h)) H0). lra.
Qed.
Lemma Rsum_perm l m : Permutation l m -> Rsum l = Rsum m.
Proof. induction 1; simpl; lra. Qed.
Lemma fsum_Rsum_swap {A} n (g : nat -> A -> R) l :
  fsum n (fun k => Rsum (map (g k) l)) = Rsum (map (fun a => fsum n (fun k => g k a)) l).
Proof.
  induction l; simpl.
  - apply fsum_zero; auto.
  - rewrite fsum_plus, IHl. auto.
Qed.

(** ** Sums over all points *)
Lemma psum_ext L c d : all_live L (fun ph p => c ph p = d ph p) -> psum L c = psum L d.
Proof. intros. apply Rsum_ext. intros. apply Rsum_ext. intros. apply H; auto. Qed.
Lemma psum_plus L c d : psum L (fun ph p => c ph p + d ph p) = psum L c + psum L d.
Proof.
  unfold psum. rewrite <- Rsum_plus. apply Rsum_ext. intros. apply Rsum_plus.
Qed.
Lemma psum_scal L k c : psum L (fun ph p => k * c ph p) = k * psum L c.
Proof. unfold psum. rewrite <- Rsum_scal. apply Rsum_ext. intros. apply Rsum_scal. Qed.
Lemma psum_scal_r L k c : psum L (fun ph p => c ph p * k) = psum L c * k.
Proof.
  rewrite Rmult_comm, <- psum_scal. apply psum_ext. intros ? ? ? ?; lra.
Qed.
Lemma psum_zero L c : all_live L (fun ph p => c ph p = 0) -> psum L c = 0.
Proof. intros. apply Rsum_zero. intros. apply Rsum_zero. intros. apply H; auto. Qed.
Lemma psum_le L c d : all_live L (fun ph p => c ph p <= d ph p) -> psum L c <= psum L d.
Proof. intros. apply Rsum_le. intros. apply Rsum_le. intros. apply H; auto. Qed.
Lemma psum_nonneg L c : all_live L (fun ph p => 0 <= c ph p) -> 0 <= psum L c.
Proof. intros. apply Rsum_nonneg. intros. apply Rsum_nonneg. intros. apply H; auto. Qed.
Lemma psum_ge_elem L c ph p :
  all_live L (fun ph p => 0 <= c ph p) -> In ph L -> In p (live ph) -> c ph p <= psum L c.
Proof.
  intros. eapply Rle_trans; [apply (Rsum_ge_elem (c ph) (live ph) p)|].
  - intros. apply H; auto.
  - auto.
  - apply (Rsum_ge_elem (fun ph => Rsum (map (c ph) (live ph)))); auto.
    intros. apply Rsum_nonneg. intros. apply H; auto.
Qed.
Lemma psum_swap n L (c : nat -> phase R -> particle R -> R) :
  fsum n (fun k => psum L (c k)) = psum L (fun ph p => fsum n (fun k => c k ph p)).
Proof.
  unfold psum. rewrite fsum_Rsum_swap. apply Rsum_ext. intros. apply fsum_Rsum_swap.
Qed.

(** ** Booleans of the real instance *)
Lemma Rltb_true a b : Rltb a b = true <-> a < b.
Proof. unfold Rltb. destruct (Rlt_dec a b); split; auto; discriminate. Qed.
Lemma Rltb_false a b : Rltb a b = false <-> b <= a.
Proof. unfold Rltb. destruct (Rlt_dec a b); split; intros; auto; try discriminate; lra. Qed.
Lemma Rleb_true a b : Rleb a b = true <-> a <= b.
Proof. unfold Rleb. destruct (Rle_dec a b); split; auto; discriminate. Qed.
Lemma Rleb_false a b : Rleb a b = false <-> b < a.
Proof. unfold Rleb. destruct (Rle_dec a b); split; intros; auto; try discriminate; lra. Qed.
Lemma Reqb_true a b : Reqb a b = true <-> a = b.
Proof. unfold Reqb. destruct (Req_EM_T a b); split; auto; discriminate. Qed.
Lemma Reqb_false a b : Reqb a b = false <-> a <> b.
Proof. unfold Reqb. destruct (Req_EM_T a b); split; intros; auto; try discriminate; contradiction. Qed.

(** ** Integer part *)
Lemma Rfloor_spec x z : IZR z <= x < IZR z + 1 -> Rfloor x = z.
Proof.
  intros. unfold Rfloor. destruct (base_Int_part x) as [H1 H2].
  assert (IZR (Int_part x) < IZR (z + 1)) by (rewrite plus_IZR; lra).
  assert (IZR z < IZR (Int_part x + 1)) by (rewrite plus_IZR; lra).
  apply lt_IZR in H0. apply lt_IZR in H3. lia.
Qed.
Lemma Rfloor_bounds x : IZR (Rfloor x) <= x < IZR (Rfloor x) + 1.
Proof. unfold Rfloor. destruct (base_Int_part x). lra. Qed.
Lemma Rtrunc_nonneg x : 0 <= x -> Rtrunc x = Rfloor x.
Proof. intros. unfold Rtrunc. destruct (Rle_dec 0 x); auto; contradiction. Qed.
Lemma Rfloor_IZR z : Rfloor (IZR z) = z.
Proof. apply Rfloor_spec. lra. Qed.

(** [lsum] of the model is the plain sum. *)
Lemma lsum_Rsum (l : list R) : lsum l = Rsum l.
Proof.
  unfold lsum. cbn.
  assert (forall l a, fold_left Rplus l a = a + Rsum l).
  { clear l. induction l; simpl; intros; [lra|]. rewrite IHl. lra. }
  rewrite H. lra.
Qed.

(** Vector components. *)
Lemma comp_vadd a (u v : V3 R) : comp a (vadd u v) = comp a u + comp a v.
Proof. destruct a; reflexivity. Qed.
Lemma comp_vsub a (u v : V3 R) : comp a (vsub u v) = comp a u - comp a v.
Proof. destruct a; reflexivity. Qed.
Lemma comp_vscale a k (u : V3 R) : comp a (vscale k u) = k * comp a u.
Proof. destruct a; reflexivity. Qed.
Lemma comp_vdivs a k (u : V3 R) : comp a (vdivs u k) = comp a u / k.
Proof. destruct a; reflexivity. Qed.
Lemma comp_vmuls a k (u : V3 R) : comp a (vmuls u k) = comp a u * k.
Proof. destruct a; reflexivity. Qed.
Lemma comp_v0 a : comp a (v0 : V3 R) = 0.
Proof. destruct a; reflexivity. Qed.
Lemma v3_ext {T} (u v : V3 T) : (forall a, comp a u = comp a v) -> u = v.
Proof.
  intros. destruct u, v. pose proof (H AX). pose proof (H AY). pose proof (H AZ). simpl in *. congruence.
Qed.
