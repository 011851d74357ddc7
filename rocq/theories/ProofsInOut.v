(** * Loops over phases, outlets, inlets: what they do to the particle lists. *)
From Coq Require Import ZArith List Bool Arith Lia.
From Verif Require Import State LibList ModelGrid ModelConstit ModelParticle ModelMPList.
Import ListNotations.

Section InOut.
  Context {T : Type} `{Num T}.

  Lemma phases_ok (f : phase T -> res (phase T)) L L' :
    phases_ f L = Ok L' <-> Forall2 (fun ph ph' => f ph = Ok ph') L L'.
  Proof.
    unfold phases_. split.
    - intros E. pbinds E. injection E as <-. revert E0. generalize 0%nat. generalize tt. revert b b0.
      induction L as [|ph L IH]; intros b b0 u k E; cbn [forM] in E.
      + injection E as <- _. constructor.
      + pbinds E. injection E as <- _. pbinds E0. injection E0 as <- _. constructor; [assumption|].
        destruct u, b2. eapply IH. eassumption.
    - intros F. enough (forall k, forM (fun _ ph (_ : unit) => ph <- f ph ;; Ok (ph, tt)) k L tt = Ok (L', tt))
        as -> by reflexivity.
      induction F as [|ph ph' L L' E F IH]; intros k; cbn; [reflexivity|].
      rewrite E. cbn. rewrite IH. reflexivity.
  Qed.

  Lemma del_at_app {A} (l r : list A) a : del_at (length l) (l ++ a :: r) = l ++ r.
  Proof. induction l; cbn; [reflexivity|]. f_equal. assumption. Qed.

  (** Deleting from the top down keeps exactly the points that are not out. *)
  Lemma delete_where_ok (out : particle T -> bool) (outr : particle T -> res bool) ph :
    (forall p, In p (ph_pts ph) -> outr p = Ok (out p)) ->
    ph_n ph = length (ph_pts ph) ->
    delete_where outr ph =
      Ok (ph <| ph_pts := filter (fun p => negb (out p)) (ph_pts ph) |>
             <| ph_n := length (filter (fun p => negb (out p)) (ph_pts ph)) |>).
  Proof.
    intros HO HN. unfold delete_where. rewrite HN.
    destruct ph as [sol n sv pts]. cbn [ph_pts ph_n ph_sol ph_sv set] in *. subst n.
    cut (forall r, foldM (fun ph i =>
             p <- nth_res (ph_pts ph) i ;; b <- outr p ;;
             Ok (if b : bool then ph <| ph_pts := del_at i (ph_pts ph) |> <| ph_n := (ph_n ph - 1)%nat |> else ph))
          (mkPhase sol (length (pts ++ r)) sv (pts ++ r)) (rev (seq 0 (length pts))) =
          Ok (mkPhase sol (length (filter (fun p => negb (out p)) pts ++ r)) sv
                (filter (fun p => negb (out p)) pts ++ r))).
    { intros C. specialize (C []). rewrite !app_nil_r in C. exact C. }
    induction pts as [|p pts IH] using rev_ind; intros r; [reflexivity|].
    replace (length (pts ++ [p])) with (Datatypes.S (length pts)) by (rewrite app_length; cbn; lia).
    rewrite seq_S, rev_app_distr.
    cbn [rev app foldM Nat.add ph_pts ph_n].
    assert (E : nth_res ((pts ++ [p]) ++ r) (length pts) = Ok p).
    { unfold nth_res. rewrite <- app_assoc, nth_error_app2, Nat.sub_diag by lia. reflexivity. }
    rewrite E. cbn [bind]. rewrite (HO p) by (apply in_or_app; right; left; reflexivity). cbn [bind].
    rewrite filter_app. cbn [filter]. destruct (out p); cbn [negb].
    - rewrite app_nil_r. cbn [set ph_pts ph_n ph_sol ph_sv].
      rewrite <- app_assoc. cbn [app]. rewrite del_at_app.
      replace (length (pts ++ p :: r) - 1)%nat with (length (pts ++ r)) by (rewrite !app_length; cbn; lia).
      apply IH. intros q Hq. apply HO. apply in_or_app. auto.
    - rewrite <- !app_assoc. cbn [app]. apply IH. intros q Hq. apply HO. apply in_or_app. auto.
  Qed.

  (** Adding points at the end. *)
  Lemma add_many {A} (f : solid T -> A -> res (particle T)) (g : phase T -> A -> res (phase T)) :
    (forall ph a, g ph a = (p <- f (ph_sol ph) a ;; Ok (ph <| ph_pts := ph_pts ph ++ [p] |> <| ph_n := (ph_n ph + 1)%nat |>))) ->
    forall l ph ph', foldM g ph l = Ok ph' ->
    exists new, Forall2 (fun a p => f (ph_sol ph) a = Ok p) l new /\
      ph' = ph <| ph_pts := ph_pts ph ++ new |> <| ph_n := (ph_n ph + length l)%nat |>.
  Proof.
    intros Hg. induction l as [|a l IH]; intros ph ph' E; cbn in E.
    - injection E as <-. exists []. split; [constructor|]. destruct ph; cbn. rewrite app_nil_r, Nat.add_0_r. reflexivity.
    - rewrite Hg in E. pbinds E. pbinds E0. injection E0 as <-.
      destruct (IH _ _ E) as (new & F & ->). exists (a1 :: new). split; [constructor; assumption|].
      destruct ph as [so n sv pts]. unfold set. cbn.
      replace (n + 1 + length l)%nat with (n + Datatypes.S (length l))%nat by lia. rewrite <- app_assoc. reflexivity.
  Qed.
End InOut.

(** ** Simulation and indexing lemmas for the loops *)
Lemma foldM_sim {S1 S2 A} (R : S1 -> S2 -> Prop) (f1 : S1 -> A -> res S1) (f2 : S2 -> A -> res S2) :
  (forall s1 s2 a s1', R s1 s2 -> f1 s1 a = Ok s1' -> exists s2', f2 s2 a = Ok s2' /\ R s1' s2') ->
  forall l s1 s2 s1', R s1 s2 -> foldM f1 s1 l = Ok s1' -> exists s2', foldM f2 s2 l = Ok s2' /\ R s1' s2'.
Proof.
  intros Hs. induction l as [|a l IH]; intros s1 s2 s1' HR E; cbn in *.
  - injection E as <-. eauto.
  - pbinds E. destruct (Hs _ _ _ _ HR E0) as (s2' & -> & HR'). cbn [bind]. eauto.
Qed.

Lemma forM_nth {S A} (f : nat -> A -> S -> res (A * S)) l : forall k s l' s' i a,
  forM f k l s = Ok (l', s') -> nth_error l i = Some a ->
  exists a' s1 s2, nth_error l' i = Some a' /\ f (k + i)%nat a s1 = Ok (a', s2).
Proof.
  induction l as [|x l IH]; intros k s l' s' i a E Hi; [destruct i; discriminate|].
  cbn in E. pbinds E. injection E as <- <-. destruct i as [|i]; cbn in Hi |- *.
  - injection Hi as ->. rewrite Nat.add_0_r. eauto.
  - destruct (IH _ _ _ _ _ _ E1 Hi) as (a' & s1 & s2 & N & F).
    replace (k + Datatypes.S i)%nat with (Datatypes.S k + i)%nat by lia. eauto.
Qed.
