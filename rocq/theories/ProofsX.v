(** * Computing with reals extended by infinities and NaN *)
From Coq Require Import ZArith List Bool Arith Lia Reals Lra.
From Verif Require Import State NumR NumX LibR LibList Spec SpecLaws ModelGrid ModelConstit ProofsGrid ProofsLaws.
Import ListNotations.
Local Open Scope R_scope.

Lemma xdivF (x y : R) : y <> 0 -> (Fin x / Fin y)%num = Fin (x / y).
Proof. intros Hy. cbn. rewrite (proj2 (Reqb_false y 0) Hy). reflexivity. Qed.
Lemma xinf_pos (x : R) b : 0 < x -> xinf_sign x b = if b then NInf else PInf.
Proof. intros Hx. unfold xinf_sign. cbn [nltb n0 Num_R]. rewrite (proj2 (Rltb_true 0 x) Hx). reflexivity. Qed.
Lemma xinf_neg (x : R) b : x < 0 -> xinf_sign x b = if b then PInf else NInf.
Proof.
  intros Hx. unfold xinf_sign. cbn [nltb n0 Num_R]. rewrite (proj2 (Rltb_false 0 x)) by lra.
  rewrite (proj2 (Rltb_true x 0) Hx). reflexivity.
Qed.
Lemma xinf_zero b : xinf_sign 0 b = NaN.
Proof. unfold xinf_sign. cbn [nltb n0 Num_R]. rewrite (proj2 (Rltb_false 0 0)) by lra. reflexivity. Qed.
Lemma xdiv0 (x : R) : (Fin x / Fin 0)%num = xinf_sign x false.
Proof. cbn. rewrite (proj2 (Reqb_true 0 0) eq_refl). reflexivity. Qed.
Lemma xsqrtF (x : R) : 0 <= x -> nsqrt (Fin x) = Fin (sqrt x).
Proof. intros Hx. cbn. rewrite (proj2 (Rltb_false x 0)) by (cbn; lra). reflexivity. Qed.
Lemma xmulF (x y : R) : (Fin x * Fin y)%num = Fin (x * y). Proof. reflexivity. Qed.
Lemma xaddF (x y : R) : (Fin x + Fin y)%num = Fin (x + y). Proof. reflexivity. Qed.
Lemma xsubF (x y : R) : (Fin x - Fin y)%num = Fin (x - y). Proof. reflexivity. Qed.
Lemma xabsF (x : R) : nabs (Fin x) = Fin (Rabs x). Proof. reflexivity. Qed.
Lemma xminF (x y : R) : nmin (Fin x) (Fin y) = Fin (Rmin x y). Proof. reflexivity. Qed.
Lemma fltmax_pos : 0 <= fltmax (T := R).
Proof. unfold fltmax. cbn [nofZ Num_R]. apply IZR_le. vm_compute. discriminate. Qed.

(** Finite matrices. *)
Definition F3 (a : M3 R) : M3 (X R) :=
  mkM3 (Fin (xx a)) (Fin (xy a)) (Fin (xz a)) (Fin (yx a)) (Fin (yy a)) (Fin (yz a)) (Fin (zx a)) (Fin (zy a)) (Fin (zz a)).
Lemma F3_add a b : madd (F3 a) (F3 b) = F3 (madd a b). Proof. reflexivity. Qed.
Lemma F3_sub a b : msub (F3 a) (F3 b) = F3 (msub a b). Proof. reflexivity. Qed.
Lemma F3_scale k a : mscale (Fin k) (F3 a) = F3 (mscale k a). Proof. reflexivity. Qed.
Lemma F3_eye : eye = F3 eye. Proof. reflexivity. Qed.
Lemma F3_sum a : msum (F3 a) = Fin (msum a). Proof. reflexivity. Qed.
Lemma F3_sq a : mmap nsq (F3 a) = F3 (mmap nsq a). Proof. reflexivity. Qed.
Lemma F3_trace a : trace (F3 a) = Fin (trace a). Proof. reflexivity. Qed.
Lemma F3_opp a : mopp (F3 a) = F3 (mopp a). Proof. reflexivity. Qed.
Lemma F3_divs a k : k <> 0 -> mdivs (F3 a) (Fin k) = F3 (mdivs a k).
Proof. intros Hk. unfold mdivs, mmap. cbn [F3 xx xy xz yx yy yz zx zy zz]. rewrite !xdivF by exact Hk. reflexivity. Qed.
Lemma F3_fin a : mallfin (F3 a) = true. Proof. reflexivity. Qed.
Lemma msum_sq_pos (a : M3 R) : 0 <= msum (mmap nsq a).
Proof. destruct a as [a1 a2 a3 a4 a5 a6 a7 a8 a9]. unfold msum, mmap, nsq. cbn. nra. Qed.

(** Sums weighted with the size fractions. *)
Definition wsum (phi b : list R) (n : nat) : R := fsum n (fun i => nth i phi 0 * nth i b 0).
Lemma weighted_fin (MP : particle (X R)) phi b n get : pphi MP = map Fin phi -> (n <= length phi)%nat ->
  (forall i, (i < n)%nat -> get i = Ok (Fin (nth i b 0))) -> weighted MP n get = Ok (Fin (wsum phi b n)).
Proof.
  intros EP HL Hg. unfold weighted, wsum. change (@n0 (X R) _) with (Fin 0).
  assert (A : forall m acc k, (k + m <= n)%nat ->
    foldM (fun s i => a <- nth_res (pphi MP) i;; b <- get i;; Ok (s + a * b)%num) (Fin acc) (seq k m) =
    Ok (Fin (acc + fsum m (fun i => nth (k + i) phi 0 * nth (k + i) b 0)))).
  { clear - EP HL Hg. induction m as [|m IH]; intros acc k Hk.
    - cbn. rewrite Rplus_0_r. reflexivity.
    - cbn [seq foldM]. rewrite EP. unfold nth_res at 1. rewrite nth_error_map.
      rewrite (nth_error_nth' phi 0) by lia. cbn [option_map bind]. rewrite Hg by lia. cbn [bind].
      rewrite EP in IH. rewrite xmulF, xaddF, IH by lia. do 2 f_equal.
      assert (S1 : fsum (Datatypes.S m) (fun i => nth (k + i) phi 0 * nth (k + i) b 0) =
        nth k phi 0 * nth k b 0 + fsum m (fun i => nth (Datatypes.S k + i) phi 0 * nth (Datatypes.S k + i) b 0)).
      { clear. induction m as [|m IH]; [cbn; rewrite Nat.add_0_r; lra|].
        cbn [fsum] in IH |- *. rewrite IH. replace (Datatypes.S k + m)%nat with (k + Datatypes.S m)%nat by lia. lra. }
      rewrite S1. lra. }
  rewrite (A n 0 0%nat) by lia. do 2 f_equal. rewrite Rplus_0_l. reflexivity.
Qed.
Lemma mean_size_weighted {T} `{Num T} P (MP : particle T) :
  mean_size P MP = weighted MP (ns (pG P)) (fun i => nth_res (gs (pG P)) i).
Proof. reflexivity. Qed.
Lemma nth_res_fin l i : (i < length l)%nat -> nth_res (map Fin l) i = Ok (Fin (nth i l 0)).
Proof. intros Hi. unfold nth_res. rewrite nth_error_map, (nth_error_nth' l 0) by exact Hi. reflexivity. Qed.
Lemma wsum_pos phi b n : Forall (Rle 0) phi -> Forall (Rle 0) b -> 0 <= wsum phi b n.
Proof.
  intros HP HB. unfold wsum. apply fsum_nonneg. intros i _. apply Rmult_le_pos.
  - destruct (Nat.lt_ge_cases i (length phi)) as [Q|Q]; [exact (proj1 (Forall_forall _ _) HP _ (nth_In _ _ Q))|rewrite nth_overflow by exact Q; lra].
  - destruct (Nat.lt_ge_cases i (length b)) as [Q|Q]; [exact (proj1 (Forall_forall _ _) HB _ (nth_In _ _ Q))|rewrite nth_overflow by exact Q; lra].
Qed.
