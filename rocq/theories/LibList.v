(** * Generic facts on lists, indexing and the loops of PyBase.v. *)
From Coq Require Import ZArith List Bool Arith Lia.
From Verif Require Import Num PyBase.
Import ListNotations.

Lemma bind_ok {A B} (x : res A) (f : A -> res B) b :
  bind x f = Ok b -> exists a, x = Ok a /\ f a = Ok b.
Proof. destruct x; simpl; intros; [eauto | discriminate]. Qed.

Ltac inv H := inversion H; subst; clear H.

(** Split all [bind]s of a hypothesis [bind _ _ = Ok _]. *)
Ltac binds H :=
  repeat match type of H with
  | bind ?x ?f = Ok ?b =>
      let a := fresh "a" in let E := fresh "E" in
      apply bind_ok in H; destruct H as [a [E H]]; cbn beta in H
  end.

Lemma attr_ok {A} (o : option A) a : attr o = Ok a -> o = Some a.
Proof. destruct o; simpl; intros; inv H; auto. Qed.

(** Like [binds], also splitting the pairs that are bound. *)
Ltac pbinds H :=
  repeat match type of H with
  | bind ?x ?f = Ok ?b =>
      let a := fresh "a" in let E := fresh "E" in
      apply bind_ok in H; destruct H as [a [E H]]; cbn beta in H;
      lazymatch type of a with
      | prod (prod _ _) _ =>
          let b := fresh "b" in let c := fresh "b" in let d := fresh "b" in destruct a as [[b c] d]
      | prod _ _ => let b := fresh "b" in let c := fresh "b" in destruct a as [b c]
      | _ => idtac
      end; cbn beta iota in H
  end.

(** ** Indexing *)
Lemma nth_res_ok {A} (l : list A) k a d : nth_res l k = Ok a -> k < length l /\ nth k l d = a.
Proof.
  unfold nth_res. destruct (nth_error l k) eqn:E; intros; inv H.
  split; [apply nth_error_Some; congruence | apply nth_error_nth; auto].
Qed.
Lemma nth_res_lt {A} (l : list A) k d : k < length l -> nth_res l k = Ok (nth k l d).
Proof.
  intros. unfold nth_res. rewrite (nth_error_nth' l d H). reflexivity.
Qed.

(** The index computation depends on the length only. *)
Definition pyi (n : nat) (i : Z) : option nat :=
  let n := Z.of_nat n in
  if ((0 <=? i) && (i <? n))%Z then Some (Z.to_nat i)
  else if ((- n <=? i) && (i <? 0))%Z then Some (Z.to_nat (i + n))
  else None.

Lemma py_idx_pyi {A} (l : list A) i :
  py_idx l i = match pyi (length l) i with Some k => Ok k | None => Err IndexError end.
Proof.
  unfold py_idx, pyi.
  destruct ((0 <=? i) && (i <? Z.of_nat (length l)))%Z; auto.
  destruct ((- Z.of_nat (length l) <=? i) && (i <? 0))%Z; auto.
Qed.

Lemma pyi_lt n i k : pyi n i = Some k -> k < n.
Proof.
  unfold pyi. intros H.
  destruct ((0 <=? i) && (i <? Z.of_nat n))%Z eqn:E.
  - inv H. lia.
  - destruct ((- Z.of_nat n <=? i) && (i <? 0))%Z eqn:E2; inv H. lia.
Qed.

Lemma pyi_nonneg n k : k < n -> pyi n (Z.of_nat k) = Some k.
Proof.
  intros. unfold pyi.
  replace ((0 <=? Z.of_nat k) && (Z.of_nat k <? Z.of_nat n))%Z with true.
  - f_equal; lia.
  - symmetry; apply andb_true_intro; lia.
Qed.

Lemma py_idx_lt {A} (l : list A) i k : py_idx l i = Ok k -> k < length l.
Proof.
  rewrite py_idx_pyi. destruct (pyi (length l) i) eqn:E; intros; inv H.
  eapply pyi_lt; eauto.
Qed.

Lemma py_get_ok {A} (l : list A) i a d :
  py_get l i = Ok a -> exists k, pyi (length l) i = Some k /\ k < length l /\ a = nth k l d.
Proof.
  unfold py_get. intros H. binds H. rewrite py_idx_pyi in E.
  destruct (pyi (length l) i) eqn:E2; inv E.
  exists a0. split; auto.
  destruct (nth_res_ok l a0 a d H); auto.
Qed.
Lemma py_get_some {A} (l : list A) i k d :
  pyi (length l) i = Some k -> py_get l i = Ok (nth k l d).
Proof.
  intros. unfold py_get. rewrite py_idx_pyi, H. simpl. apply nth_res_lt. eapply pyi_lt; eauto.
Qed.
Lemma py_get_none {A} (l : list A) i : pyi (length l) i = None -> py_get l i = Err IndexError.
Proof. intros. unfold py_get. rewrite py_idx_pyi, H. reflexivity. Qed.

Lemma upd_length {A} k f (l : list A) : length (upd k f l) = length l.
Proof. revert k; induction l; destruct k; simpl; auto. Qed.

Lemma upd_nth {A} k f (l : list A) j d :
  nth j (upd k f l) d = if (j =? k) && (j <? length l) then f (nth j l d) else nth j l d.
Proof.
  revert k j; induction l as [|a l IH]; intros.
  - destruct k, j; simpl; rewrite ?andb_false_r; auto.
  - destruct k, j; simpl; auto.
    rewrite IH. reflexivity.
Qed.
Lemma upd_nth_eq {A} k f (l : list A) d : k < length l -> nth k (upd k f l) d = f (nth k l d).
Proof.
  intros. rewrite upd_nth, Nat.eqb_refl.
  destruct (k <? length l) eqn:E; [reflexivity | apply Nat.ltb_ge in E; lia].
Qed.
Lemma upd_nth_ne {A} k f (l : list A) j d : j <> k -> nth j (upd k f l) d = nth j l d.
Proof. intros. rewrite upd_nth. destruct (j =? k) eqn:E; auto. apply Nat.eqb_eq in E; lia. Qed.

Lemma py_upd_ok {A} (l : list A) i f l' :
  py_upd l i f = Ok l' -> exists k, pyi (length l) i = Some k /\ k < length l /\ l' = upd k f l.
Proof.
  unfold py_upd. intros H. binds H. inv H. pose proof (py_idx_lt _ _ _ E).
  rewrite py_idx_pyi in E. destruct (pyi (length l) i) eqn:E2; inv E. eauto.
Qed.
Lemma py_upd_some {A} (l : list A) i k f :
  pyi (length l) i = Some k -> py_upd l i f = Ok (upd k f l).
Proof. intros. unfold py_upd. rewrite py_idx_pyi, H. reflexivity. Qed.
Lemma py_upd_length {A} (l : list A) i f l' : py_upd l i f = Ok l' -> length l' = length l.
Proof. intros. apply py_upd_ok in H. destruct H as (k & _ & _ & ->). apply upd_length. Qed.

(** ** Loops *)
Lemma foldM_ind {S A} (f : S -> A -> res S) (I : list A -> S -> Prop) :
  (forall pre a s s', I pre s -> f s a = Ok s' -> I (pre ++ [a]) s') ->
  forall l pre s s', I pre s -> foldM f s l = Ok s' -> I (pre ++ l) s'.
Proof.
  intros Hs. induction l as [|a l IH]; simpl; intros pre s s' H0 H.
  - inv H. rewrite app_nil_r. auto.
  - binds H.
    replace (pre ++ a :: l) with ((pre ++ [a]) ++ l) by (rewrite <- app_assoc; reflexivity).
    eapply IH; eauto.
Qed.

(** Simple invariant. *)
Lemma foldM_inv {S A} (f : S -> A -> res S) (I : S -> Prop) l s s' :
  I s -> (forall s a s', In a l -> I s -> f s a = Ok s' -> I s') ->
  foldM f s l = Ok s' -> I s'.
Proof.
  revert s. induction l as [|a l IH]; simpl; intros s H0 Hs H.
  - inv H. auto.
  - binds H. eapply (IH a0); eauto.
Qed.

Lemma foldM_app {S A} (f : S -> A -> res S) l1 l2 s :
  foldM f s (l1 ++ l2) = bind (foldM f s l1) (fun s => foldM f s l2).
Proof.
  revert s; induction l1; simpl; intros; auto.
  destruct (f s a); simpl; auto.
Qed.

Lemma each_inv {S A} (f : A -> S -> res (A * S)) (I : S -> Prop) n l s l' s' :
  I s -> (forall a s a' s', In a l -> I s -> f a s = Ok (a', s') -> I s') ->
  each n f l s = Ok (l', s') -> I s'.
Proof.
  revert l s l'. induction n; simpl; intros l s l' H0 Hs H.
  - inv H. auto.
  - destruct l as [|a l]; [discriminate|].
    binds H. destruct a0 as [a' s1]. binds H. destruct a0 as [l'' s2]. inv H.
    eapply (IHn l s1); eauto.
    + eapply Hs; eauto. left; auto.
    + intros. eapply Hs; eauto. right; auto.
Qed.

(** Length is kept and each element is transformed by one call of the body. *)
Lemma each_length {S A} (f : A -> S -> res (A * S)) n l s l' s' :
  each n f l s = Ok (l', s') -> length l' = length l.
Proof.
  revert l s l'. induction n; simpl; intros l s l' H.
  - inv H. auto.
  - destruct l as [|a l]; [discriminate|].
    binds H. destruct a0 as [a1 s1]. binds H. destruct a0 as [l1 s2]. inv H. simpl. f_equal. eauto.
Qed.
Lemma each_le {S A} (f : A -> S -> res (A * S)) n l s l' s' :
  each n f l s = Ok (l', s') -> n <= length l.
Proof.
  revert l s l'. induction n; simpl; intros l s l' H; [lia|].
  destruct l as [|a l]; [discriminate|].
  binds H. destruct a0 as [a1 s1]. binds H. destruct a0 as [l1 s2]. inv H. simpl. apply IHn in E0. lia.
Qed.

(** A relation between state and element, threaded through the loop. *)
Lemma each_rel {S A} (f : A -> S -> res (A * S)) (I : S -> Prop) (R : A -> A -> Prop) n l s l' s' :
  I s ->
  (forall a s a' s', In a l -> I s -> f a s = Ok (a', s') -> I s' /\ R a a') ->
  (forall a, In a l -> R a a) ->
  each n f l s = Ok (l', s') -> I s' /\ Forall2 R l l'.
Proof.
  revert l s l'. induction n; simpl; intros l s l' H0 Hs Hr H.
  - inv H. split; auto. clear - Hr. induction l'; constructor.
    + apply Hr; left; auto.
    + apply IHl'. intros. apply Hr; right; auto.
  - destruct l as [|a l]; [discriminate|].
    binds H. destruct a0 as [a' s1]. binds H. destruct a0 as [l'' s2]. inv H.
    destruct (Hs _ _ _ _ (or_introl eq_refl) H0 E) as [I1 R1].
    destruct (IHn l s1 l'' I1) as [I2 R2]; auto.
    + intros. eapply Hs; eauto. right; auto.
    + intros. apply Hr; right; auto.
Qed.

Lemma forM_rel {S A} (f : nat -> A -> S -> res (A * S)) (I : S -> Prop) (R : A -> A -> Prop) l :
  forall k s l' s',
  I s ->
  (forall k a s a' s', In a l -> I s -> f k a s = Ok (a', s') -> I s' /\ R a a') ->
  forM f k l s = Ok (l', s') -> I s' /\ Forall2 R l l'.
Proof.
  induction l as [|a l IH]; simpl; intros k s l' s' H0 Hs H.
  - inv H. auto.
  - binds H. destruct a0 as [a' s1]. binds H. destruct a0 as [l'' s2]. inv H.
    destruct (Hs _ _ _ _ _ (or_introl eq_refl) H0 E) as [I1 R1].
    destruct (IH (Datatypes.S k) s1 l'' s' I1) as [I2 R2]; auto.
    all: try (intros; eapply Hs; eauto; right; auto).
Qed.

Lemma Forall2_len {A B} (R : A -> B -> Prop) l l' : Forall2 R l l' -> length l = length l'.
Proof. induction 1; simpl; auto. Qed.

Lemma forM_length {S A} (f : nat -> A -> S -> res (A * S)) l k s l' s' :
  forM f k l s = Ok (l', s') -> length l' = length l.
Proof.
  intros. eapply (forM_rel f (fun _ => True) (fun _ _ => True)) in H; auto.
  destruct H as [_ H]. apply Forall2_len in H. auto.
Qed.

Lemma mapM_Forall2 {A B} (f : A -> res B) l l' :
  mapM f l = Ok l' -> Forall2 (fun a b => f a = Ok b) l l'.
Proof.
  revert l'; induction l; simpl; intros.
  - inv H; constructor.
  - binds H. inv H. constructor; auto.
Qed.

(** ** mapi, zipw *)
Lemma mapi_from_length {A B} (f : nat -> A -> B) l k : length (mapi_from k f l) = length l.
Proof. revert k; induction l; simpl; auto. Qed.
Lemma mapi_length {A B} (f : nat -> A -> B) l : length (mapi f l) = length l.
Proof. apply mapi_from_length. Qed.
Lemma mapi_from_nth {A B} (f : nat -> A -> B) l k i d d' :
  i < length l -> nth i (mapi_from k f l) d' = f (k + i) (nth i l d).
Proof.
  revert k i; induction l; simpl; intros; [lia|].
  destruct i.
  - f_equal; lia.
  - rewrite IHl by lia. f_equal; lia.
Qed.
Lemma mapi_nth {A B} (f : nat -> A -> B) l i d d' :
  i < length l -> nth i (mapi f l) d' = f i (nth i l d).
Proof. intros. unfold mapi. rewrite (mapi_from_nth f l 0 i d d'); auto. Qed.

Lemma zipw_length {A B C} (f : A -> B -> C) l m : length (zipw f l m) = Nat.min (length l) (length m).
Proof. revert m; induction l; destruct m; simpl; auto. Qed.
Lemma zipw_nth {A B C} (f : A -> B -> C) l m i da db dc :
  i < length l -> i < length m -> nth i (zipw f l m) dc = f (nth i l da) (nth i m db).
Proof.
  revert m i; induction l; destruct m; simpl; intros; try lia.
  destruct i; auto. apply IHl; lia.
Qed.

Lemma map_slice_length {A} a b s (f : A -> A) l : length (map_slice a b s f l) = length l.
Proof. unfold map_slice. apply mapi_length. Qed.
Lemma map_slice_nth {A} a b s (f : A -> A) l i d :
  i < length l ->
  nth i (map_slice a b s f l) d = if in_slice (length l) a b s i then f (nth i l d) else nth i l d.
Proof. intros. unfold map_slice. rewrite (mapi_nth _ l i d d); auto. Qed.

Lemma nth_repeat_any {A} (a : A) n i d : i < n -> nth i (repeat a n) d = a.
Proof. revert i; induction n; simpl; intros; [lia|]. destruct i; auto. apply IHn; lia. Qed.

Lemma nth_map_lt {A B} (f : A -> B) l i d d' : i < length l -> nth i (map f l) d' = f (nth i l d).
Proof. intros. rewrite nth_indep with (d' := f d) by (rewrite map_length; auto). apply map_nth. Qed.

Lemma nth_seq0 n i d : i < n -> nth i (seq 0 n) d = i.
Proof. intros. rewrite seq_nth; auto. Qed.

Lemma nth_ext_len {A} (l m : list A) d : length l = length m ->
  (forall i, i < length l -> nth i l d = nth i m d) -> l = m.
Proof. intros. eapply nth_ext; eauto. Qed.
