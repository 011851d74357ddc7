(** * Slices of the flattened grid: rows, columns, strided access. *)
From Coq Require Import ZArith List Bool Arith Lia.
From Verif Require Import Num PyBase LibList.
Import ListNotations.

(** Column and row by division with remainder, for the slices of the code. *)
Lemma in_slice_first n len k : (k < len)%nat -> (n <= len)%nat ->
  in_slice len None (Some (Z.of_nat n)) 1 k = (k <? n)%nat.
Proof.
  intros Hk Hn. unfold in_slice, clip_bound.
  destruct (Z.ltb_spec (Z.of_nat n) 0); [lia|].
  rewrite Z.mod_1_r. cbn [Z.eqb]. rewrite andb_true_r.
  destruct (Nat.ltb_spec k n); destruct (Z.leb_spec 0 (Z.of_nat k));
  destruct (Z.ltb_spec (Z.of_nat k) (Z.min (Z.of_nat n) (Z.of_nat len))); simpl; auto; lia.
Qed.

(** [start:] with a non-negative start *)
Lemma in_slice_from a len k : (0 <= a)%Z -> (k < len)%nat ->
  in_slice len (Some a) None 1 k = (a <=? Z.of_nat k)%Z.
Proof.
  intros Ha Hk. unfold in_slice, clip_bound.
  destruct (Z.ltb_spec a 0); [lia|].
  rewrite Z.mod_1_r. cbn [Z.eqb]. rewrite andb_true_r.
  destruct (Z.leb_spec a (Z.of_nat k)); destruct (Z.leb_spec (Z.min a (Z.of_nat len)) (Z.of_nat k));
  destruct (Z.ltb_spec (Z.of_nat k) (Z.of_nat len)); simpl; auto; lia.
Qed.

(** [start:stop] with non-negative bounds *)
Lemma in_slice_range a b len k : (0 <= a)%Z -> (0 <= b)%Z -> (k < len)%nat ->
  in_slice len (Some a) (Some b) 1 k = ((a <=? Z.of_nat k) && (Z.of_nat k <? b))%Z.
Proof.
  intros Ha Hb Hk. unfold in_slice, clip_bound.
  destruct (Z.ltb_spec a 0); [lia|]. destruct (Z.ltb_spec b 0); [lia|].
  rewrite Z.mod_1_r. cbn [Z.eqb]. rewrite andb_true_r.
  destruct (Z.leb_spec a (Z.of_nat k)); destruct (Z.leb_spec (Z.min a (Z.of_nat len)) (Z.of_nat k));
  destruct (Z.ltb_spec (Z.of_nat k) b); destruct (Z.ltb_spec (Z.of_nat k) (Z.min b (Z.of_nat len)));
  simpl; auto; lia.
Qed.

Lemma mod_eq_iff n k a : (0 < n)%nat -> (a <= k)%nat ->
  ((Z.of_nat k - Z.of_nat a) mod Z.of_nat n =? 0)%Z = Nat.eqb (k mod n) (a mod n).
Proof.
  intros Hn Ha. rewrite <- Nat2Z.inj_sub by auto. rewrite <- Nat2Z.inj_mod.
  destruct (Nat.eqb_spec (k mod n) (a mod n)).
  - apply Z.eqb_eq. change 0%Z with (Z.of_nat 0). f_equal.
    apply Nat.mod_divides; [lia|].
    pose proof (Nat.div_mod k n). pose proof (Nat.div_mod a n).
    exists (k / n - a / n)%nat. nia.
  - apply Z.eqb_neq. intros E. change 0%Z with (Z.of_nat 0) in E. apply Nat2Z.inj in E.
    apply Nat.mod_divides in E; [|lia]. destruct E as [c E]. apply n0.
    replace k with (a + c * n)%nat by lia. apply Nat.mod_add. lia.
Qed.

(** [start:stop:n] with [start] and [stop] non-negative and [start <= len]. *)
Lemma in_slice_stride a b n len k : (0 < n)%nat -> (0 <= b)%Z -> (a <= len)%nat -> (k < len)%nat ->
  in_slice len (Some (Z.of_nat a)) (Some b) (Z.of_nat n) k =
  ((a <=? k)%nat && (Z.of_nat k <? b)%Z && Nat.eqb (k mod n) (a mod n))%bool.
Proof.
  intros Hn Hb Ha Hk. unfold in_slice, clip_bound.
  destruct (Z.ltb_spec (Z.of_nat a) 0); [lia|]. destruct (Z.ltb_spec b 0); [lia|].
  rewrite Z.min_l by lia.
  replace (Z.of_nat a <=? Z.of_nat k)%Z with (a <=? k)%nat.
  2: { destruct (Nat.leb_spec a k); destruct (Z.leb_spec (Z.of_nat a) (Z.of_nat k)); auto; lia. }
  replace (Z.of_nat k <? Z.min b (Z.of_nat len))%Z with (Z.of_nat k <? b)%Z.
  2: { destruct (Z.ltb_spec (Z.of_nat k) b); destruct (Z.ltb_spec (Z.of_nat k) (Z.min b (Z.of_nat len))); auto; lia. }
  destruct (Nat.leb_spec a k); simpl; auto.
  rewrite mod_eq_iff by auto. reflexivity.
Qed.
Lemma in_slice_stride_end a n len k : (0 < n)%nat -> (a <= len)%nat -> (k < len)%nat ->
  in_slice len (Some (Z.of_nat a)) None (Z.of_nat n) k =
  ((a <=? k)%nat && Nat.eqb (k mod n) (a mod n))%bool.
Proof.
  intros Hn Ha Hk.
  transitivity (in_slice len (Some (Z.of_nat a)) (Some (Z.of_nat len)) (Z.of_nat n) k).
  - unfold in_slice. cut (clip_bound len (Z.of_nat len) = Z.of_nat len); [intros ->; auto|].
    unfold clip_bound. destruct (Z.ltb_spec (Z.of_nat len) 0); lia.
  - rewrite in_slice_stride by lia.
    destruct (Z.ltb_spec (Z.of_nat k) (Z.of_nat len)); [|lia]. rewrite andb_true_r. auto.
Qed.

(** Left and right columns. *)
Lemma in_slice_left n len k : (0 < n)%nat -> (k < len)%nat ->
  in_slice len None None (Z.of_nat n) k = Nat.eqb (k mod n) 0.
Proof.
  intros Hn Hk.
  transitivity (in_slice len (Some (Z.of_nat 0)) None (Z.of_nat n) k).
  - unfold in_slice. cut (clip_bound len (Z.of_nat 0) = 0%Z); [intros ->; auto|].
    unfold clip_bound. simpl. lia.
  - rewrite in_slice_stride_end by lia. rewrite Nat.mod_0_l by lia. simpl. auto.
Qed.
Lemma in_slice_right n len k : (0 < n)%nat -> (n <= len)%nat -> (k < len)%nat ->
  in_slice len (Some (Z.of_nat n - 1)%Z) None (Z.of_nat n) k = Nat.eqb (k mod n) (n - 1).
Proof.
  intros Hn Hl Hk. replace (Z.of_nat n - 1)%Z with (Z.of_nat (n - 1)) by lia.
  rewrite in_slice_stride_end by lia. rewrite (Nat.mod_small (n - 1)) by lia.
  destruct (Nat.eqb_spec (k mod n) (n - 1)); [|apply andb_false_r].
  rewrite andb_true_r. apply Nat.leb_le. pose proof (Nat.mod_le k n). lia.
Qed.

(** ** Array right hand sides: [l[slice] op= vals] *)
Fixpoint cnt (b : nat -> bool) (i : nat) : nat :=
  match i with O => 0 | S i => cnt b i + (if b i then 1 else 0) end%nat.

Lemma cnt_mod n c i : (c < n)%nat -> cnt (fun i => Nat.eqb (i mod n) c) i = ((i + (n - 1 - c)) / n)%nat.
Proof.
  intros Hc. induction i; simpl cnt.
  - rewrite Nat.div_small; lia.
  - rewrite IHi. clear IHi.
    set (m := (i + (n - 1 - c))%nat).
    replace (S i + (n - 1 - c))%nat with (S m) by (unfold m; lia).
    pose proof (Nat.div_mod m n ltac:(lia)) as D. pose proof (Nat.mod_upper_bound m n ltac:(lia)) as U.
    pose proof (Nat.div_mod i n ltac:(lia)) as Di. pose proof (Nat.mod_upper_bound i n ltac:(lia)) as Ui.
    destruct (Nat.eqb_spec (i mod n) c) as [E|E].
    + apply (Nat.div_unique _ _ _ 0%nat); [lia|].
      assert (m mod n = n - 1)%nat.
      { symmetry. apply (Nat.mod_unique _ _ (i / n)); [lia|]. unfold m. lia. }
      nia.
    + apply (Nat.div_unique _ _ _ (S (m mod n))); [|lia].
      assert (m mod n <> n - 1)%nat; [|lia].
      intros E'. apply E. symmetry. apply (Nat.mod_unique _ _ (m / n)); [lia|]. unfold m in *. nia.
Qed.
Lemma cnt_ext b b' i : (forall j, (j < i)%nat -> b j = b' j) -> cnt b i = cnt b' i.
Proof. induction i; simpl; intros; auto. rewrite IHi, H; auto. Qed.

Lemma cnt_shift (b : nat -> bool) k i :
  cnt (fun j => b (k + j)%nat) (S i) = ((if b k then 1 else 0) + cnt (fun j => b (S k + j)%nat) i)%nat.
Proof.
  induction i.
  - cbn [cnt]. rewrite Nat.add_0_r. lia.
  - set (r := (if b k then 1 else 0)%nat) in *. remember (S i) as n. cbn [cnt]. rewrite IHi. subst n. cbn [cnt].
    replace (S k + i)%nat with (k + S i)%nat by lia. lia.
Qed.

(** The values of a slice, by rank. *)
Lemma get_slice_gen {A} (b : nat -> bool) (l : list A) d : forall k i,
  (i < length l)%nat -> b (k + i)%nat = true ->
  nth (cnt (fun j => b (k + j)%nat) i)
      (map snd (filter (fun p => b (fst p)) (combine (seq k (length l)) l))) d = nth i l d.
Proof.
  induction l as [|a l IH]; intros k i Hi Hb; [simpl in Hi; lia|].
  cbn [length seq combine filter fst].
  destruct i.
  - rewrite Nat.add_0_r in Hb. rewrite Hb. reflexivity.
  - rewrite cnt_shift. simpl in Hi. specialize (IH (S k) i ltac:(lia)).
    replace (S k + i)%nat with (k + S i)%nat in IH by lia. specialize (IH Hb).
    destruct (b k); simpl; exact IH.
Qed.
Lemma get_slice_len_gen {A} (b : nat -> bool) (l : list A) : forall k,
  length (map snd (filter (fun p => b (fst p)) (combine (seq k (length l)) l))) =
  cnt (fun j => b (k + j)%nat) (length l).
Proof.
  induction l as [|a l IH]; intros k; auto.
  cbn [length seq combine filter fst]. rewrite cnt_shift, <- IH.
  destruct (b k); reflexivity.
Qed.
Lemma zip_slice_gen {A B} (f : A -> B -> A) len st sp step (l : list A) d dv : forall k vals i,
  (i < length l)%nat ->
  (cnt (fun j => in_slice len st sp step (k + j)%nat) (length l) <= length vals)%nat ->
  nth i (zip_slice_from k len st sp step f l vals) d =
  if in_slice len st sp step (k + i)
  then f (nth i l d) (nth (cnt (fun j => in_slice len st sp step (k + j)%nat) i) vals dv)
  else nth i l d.
Proof.
  set (b := in_slice len st sp step).
  induction l as [|a l IH]; intros k vals i Hi Hv; [simpl in Hi; lia|].
  cbn [length] in Hv, Hi. rewrite cnt_shift in Hv. cbn [zip_slice_from]. fold b.
  destruct (b k) eqn:Bk.
  - destruct vals as [|v vals]; [simpl in Hv; lia|]. simpl in Hv.
    destruct i.
    + rewrite Nat.add_0_r, Bk. reflexivity.
    + rewrite cnt_shift, Bk. cbn [nth]. rewrite (IH (S k) vals i) by (simpl; lia).
      replace (S k + i)%nat with (k + S i)%nat by lia. reflexivity.
  - destruct i.
    + rewrite Nat.add_0_r, Bk. reflexivity.
    + rewrite cnt_shift, Bk. cbn [nth]. rewrite (IH (S k) vals i) by (simpl in *; lia).
      replace (S k + i)%nat with (k + S i)%nat by lia. reflexivity.
Qed.
Lemma zip_slice_from_len {A B} (f : A -> B -> A) len st sp step (l : list A) : forall k vals,
  length (zip_slice_from k len st sp step f l vals) = length l.
Proof.
  induction l; simpl; intros; auto. destruct (in_slice _ _ _ _ _); [destruct vals|]; simpl; auto.
Qed.

(** ** Column slices of a flattened [ny] by [nx] array *)
Section Columns.
  Context {A : Type} (n m : nat) (l : list A) (d : A).
  Context (Hn : (0 < n)%nat) (Hm : (0 < m)%nat) (Hl : length l = (n * m)%nat).

  Lemma row_lt k : (k < n * m)%nat -> (k / n < m)%nat.
  Proof. clear d Hl l. intros. apply Nat.div_lt_upper_bound; lia. Qed.
  Lemma node_at r c : (c < n)%nat -> ((r * n + c) mod n = c /\ (r * n + c) / n = r)%nat.
  Proof.
    clear d Hl l Hm m. intros. split.
    - symmetry. apply (Nat.mod_unique _ _ r); lia.
    - symmetry. apply (Nat.div_unique _ _ _ c); lia.
  Qed.
  Lemma node_lt r c : (c < n)%nat -> (r < m)%nat -> (r * n + c < n * m)%nat.
  Proof. clear d Hl l. nia. Qed.

  Lemma cnt_left k : (k <= n * m)%nat ->
    cnt (fun j => in_slice (n * m) None None (Z.of_nat n) (0 + j)) k = ((k + (n - 1)) / n)%nat.
  Proof.
    clear d Hl l. intros Hk. rewrite (cnt_ext _ (fun j => Nat.eqb (j mod n) 0)).
    - rewrite cnt_mod by lia. f_equal. lia.
    - intros j Hj. simpl. apply in_slice_left; lia.
  Qed.
  Lemma cnt_right k : (k <= n * m)%nat ->
    cnt (fun j => in_slice (n * m) (Some (Z.of_nat n - 1)%Z) None (Z.of_nat n) (0 + j)) k = (k / n)%nat.
  Proof.
    clear d Hl l. intros Hk. rewrite (cnt_ext _ (fun j => Nat.eqb (j mod n) (n - 1))).
    - rewrite cnt_mod by lia. f_equal. lia.
    - intros j Hj. simpl. apply in_slice_right; nia.
  Qed.

  Lemma left_slice_len : length (get_slice None None (Z.of_nat n) l) = m.
  Proof.
    unfold get_slice. rewrite get_slice_len_gen, Hl, cnt_left by lia.
    symmetry. apply (Nat.div_unique _ _ _ (n - 1)); lia.
  Qed.
  Lemma right_slice_len : length (get_slice (Some (Z.of_nat n - 1)%Z) None (Z.of_nat n) l) = m.
  Proof.
    unfold get_slice. rewrite get_slice_len_gen, Hl, cnt_right by lia.
    rewrite Nat.mul_comm. apply Nat.div_mul. lia.
  Qed.
  Lemma left_slice_nth r : (r < m)%nat ->
    nth r (get_slice None None (Z.of_nat n) l) d = nth (r * n) l d.
  Proof.
    intros Hr. unfold get_slice.
    pose proof (get_slice_gen (in_slice (length l) None None (Z.of_nat n)) l d 0 (r * n)) as E.
    rewrite Hl in E. rewrite cnt_left in E by nia.
    replace ((r * n + (n - 1)) / n)%nat with r in E by (apply (Nat.div_unique _ _ _ (n - 1)); lia).
    rewrite Hl. apply E; [nia|]. simpl. rewrite in_slice_left by nia.
    apply Nat.eqb_eq. rewrite <- (Nat.add_0_r (r * n)). apply node_at. lia.
  Qed.
  Lemma right_slice_nth r : (r < m)%nat ->
    nth r (get_slice (Some (Z.of_nat n - 1)%Z) None (Z.of_nat n) l) d = nth (r * n + (n - 1)) l d.
  Proof.
    intros Hr. unfold get_slice. destruct (node_at r (n - 1)) as [M D]; [lia|].
    pose proof (get_slice_gen (in_slice (length l) (Some (Z.of_nat n - 1)%Z) None (Z.of_nat n)) l d 0 (r * n + (n - 1))) as E.
    rewrite Hl in E. rewrite cnt_right in E by nia. rewrite D in E.
    rewrite Hl. apply E; [nia|]. simpl. rewrite in_slice_right by nia.
    apply Nat.eqb_eq. auto.
  Qed.
End Columns.

Lemma left_zip {A} n m (f : A -> A -> A) (l vals : list A) d : (0 < n)%nat -> (0 < m)%nat ->
  length l = (n * m)%nat -> length vals = m ->
  exists l', zip_slice None None (Z.of_nat n) f l vals = Ok l' /\ length l' = (n * m)%nat /\
    forall k, (k < n * m)%nat -> nth k l' d = if Nat.eqb (k mod n) 0 then f (nth k l d) (nth (k / n) vals d) else nth k l d.
Proof.
  intros Hn Hm Hl Hv. unfold zip_slice. rewrite (left_slice_len n m) by auto. rewrite Hv, Nat.eqb_refl.
  eexists. split; [reflexivity|]. split; [rewrite zip_slice_from_len; auto|].
  intros k Hk. rewrite (zip_slice_gen f _ _ _ _ l d d).
  - rewrite Hl. rewrite (cnt_left n m) by lia. simpl Nat.add at 1. rewrite in_slice_left by lia.
    destruct (Nat.eqb_spec (k mod n) 0) as [E|E]; auto. do 2 f_equal.
    pose proof (Nat.div_mod k n ltac:(lia)). symmetry. apply (Nat.div_unique _ _ _ (n - 1)); lia.
  - lia.
  - rewrite Hl, (cnt_left n m) by lia. rewrite Hv. apply Nat.lt_succ_r.
    apply Nat.div_lt_upper_bound; nia.
Qed.
Lemma right_zip {A} n m (f : A -> A -> A) (l vals : list A) d : (0 < n)%nat -> (0 < m)%nat ->
  length l = (n * m)%nat -> length vals = m ->
  exists l', zip_slice (Some (Z.of_nat n - 1)%Z) None (Z.of_nat n) f l vals = Ok l' /\ length l' = (n * m)%nat /\
    forall k, (k < n * m)%nat -> nth k l' d = if Nat.eqb (k mod n) (n - 1) then f (nth k l d) (nth (k / n) vals d) else nth k l d.
Proof.
  intros Hn Hm Hl Hv. unfold zip_slice. rewrite (right_slice_len n m) by auto. rewrite Hv, Nat.eqb_refl.
  eexists. split; [reflexivity|]. split; [rewrite zip_slice_from_len; auto|].
  intros k Hk. rewrite (zip_slice_gen f _ _ _ _ l d d).
  - rewrite Hl. rewrite (cnt_right n m) by lia. simpl Nat.add at 1. rewrite in_slice_right by nia. auto.
  - lia.
  - rewrite Hl, (cnt_right n m) by lia. rewrite Hv. rewrite Nat.mul_comm, Nat.div_mul; lia.
Qed.

Lemma row_zero n k : (0 < n)%nat -> (k <? n)%nat = Nat.eqb (k / n) 0.
Proof.
  intros. destruct (Nat.ltb_spec k n), (Nat.eqb_spec (k / n) 0); auto.
  - rewrite Nat.div_small in n0; lia.
  - apply Nat.div_small_iff in e; lia.
Qed.
Lemma row_last n m k : (0 < n)%nat -> (0 < m)%nat -> (k < n * m)%nat ->
  ((Z.of_nat m - 1) * Z.of_nat n <=? Z.of_nat k)%Z = Nat.eqb (k / n) (m - 1).
Proof.
  intros Hn Hm Hk. pose proof (row_lt n m Hn Hm k Hk).
  pose proof (Nat.div_mod k n ltac:(lia)). pose proof (Nat.mod_upper_bound k n ltac:(lia)).
  destruct (Z.leb_spec ((Z.of_nat m - 1) * Z.of_nat n) (Z.of_nat k)), (Nat.eqb_spec (k / n) (m - 1)); auto; nia.
Qed.
