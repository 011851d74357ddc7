(** * Structure of the constitutive laws: what they change and what they keep. *)
From Coq Require Import ZArith List Bool Arith Lia.
From Verif Require Import State LibList ModelGrid ModelConstit.
Import ListNotations.

(** ** The visualisation loop changes scalar fields only *)
Section Vis.
  Context {T : Type} `{Num T}.

  Definition vis_frame (G G' : grid T) : Prop :=
    G' = G <| f_gammadot := f_gammadot G' |> <| f_yield := f_yield G' |> <| f_pressure := f_pressure G' |>
           <| f_sigmah := f_sigmah G' |> <| f_sigmav := f_sigmav G' |> <| f_dev := f_dev G' |>
           <| f_devdot := f_devdot G' |> <| f_mu_s := f_mu_s G' |> <| f_mu := f_mu G' |>
           <| f_I := f_I G' |> <| f_eta := f_eta G' |>.
  Lemma vis_frame_refl G : vis_frame G G.
  Proof. destruct G; reflexivity. Qed.
  Lemma vis_frame_trans G1 G2 G3 : vis_frame G1 G2 -> vis_frame G2 G3 -> vis_frame G1 G3.
  Proof. unfold vis_frame. intros A B. rewrite B. cbn. rewrite A. reflexivity. Qed.

  Definition slens (n : nat) (G : grid T) : Prop := forall f, length (sget f G) = n.

  Lemma sadd_ok f i w (G G' : grid T) : sadd f i w G = Ok G' ->
    vis_frame G G' /\ (forall n, slens n G -> slens n G').
  Proof.
    unfold sadd. intros E. pbinds E. pose proof (py_upd_length _ _ _ _ E0) as L. injection E as <-. split.
    - destruct f; destruct G; reflexivity.
    - intros n HS g. specialize (HS g) as Hg. pose proof (HS f) as Hf. rewrite <- Hf, <- L in *.
      destruct f, g; cbn in *; congruence.
  Qed.
  Lemma foldM_sadd (i : Z) (w : T) fs : forall (G G' : grid T),
    foldM (fun G (fw : sfield * (T -> T)) => sadd (fst fw) i (snd fw w) G) G fs = Ok G' ->
    vis_frame G G' /\ (forall n, slens n G -> slens n G').
  Proof.
    induction fs as [|fw fs IH]; simpl; intros G G' E.
    - injection E as <-. split; auto. apply vis_frame_refl.
    - pbinds E. apply sadd_ok in E0. destruct E0 as [F1 S1]. apply IH in E. destruct E as [F2 S2].
      split; auto. eapply vis_frame_trans; eauto.
  Qed.
  Lemma visualise_ok P MP fs (G G' : grid T) : visualise P MP fs G = Ok G' ->
    vis_frame G G' /\ (forall n, slens n G -> slens n G').
  Proof.
    unfold visualise, four. generalize [0; 1; 2; 3]%nat. intros l. revert G G'.
    induction l as [|r l IH]; simpl; intros G G' E.
    - injection E as <-. split; auto. apply vis_frame_refl.
    - pbinds E. apply foldM_sadd in E0. destruct E0 as [F1 S1]. apply IH in E. destruct E as [F2 S2].
      split; auto. eapply vis_frame_trans; eauto.
  Qed.

  (** It succeeds when the four nodes exist. *)
  Lemma sadd_total n f i w (G : grid T) k : slens n G -> pyi n i = Some k ->
    exists G', sadd f i w G = Ok G'.
  Proof.
    intros HS Hk. unfold sadd. rewrite (py_upd_some (sget f G) i k) by (rewrite (HS f); auto).
    cbn. eauto.
  Qed.
  Lemma visualise_total n P MP fs (G : grid T) : slens n G ->
    (forall r, (r < 4)%nat -> exists k, pyi n (nearby (pnstar MP) r (nx (pG P))) = Some k) ->
    exists G', visualise P MP fs G = Ok G'.
  Proof.
    intros HS HR. unfold visualise, four.
    assert (HL : forall r, In r [0; 1; 2; 3]%nat -> (r < 4)%nat) by (simpl; intros; lia).
    revert G HS HL. generalize [0; 1; 2; 3]%nat. intros l.
    induction l as [|r l IH]; simpl; intros G HS HL; eauto.
    destruct (HR r) as [k Hk]; [apply HL; auto|].
    assert (E : exists G1, foldM (fun G (fw : sfield * (T -> T)) => sadd (fst fw) (nearby (pnstar MP) r (nx (pG P))) (snd fw (Nr MP r)) G) G fs = Ok G1).
    { clear IH. revert G HS. induction fs as [|fw fs IHf]; simpl; intros G HS; eauto.
      destruct (sadd_total n (fst fw) _ (snd fw (Nr MP r)) G k HS Hk) as [G1 E1]. rewrite E1. cbn.
      apply IHf. apply sadd_ok in E1. apply E1. auto. }
    destruct E as [G1 E1]. rewrite E1. cbn. apply IH.
    - apply foldM_sadd in E1. apply E1. auto.
    - intros; apply HL; auto.
  Qed.
End Vis.

(** ** What a law may change in a particle *)
Section Frame.
  Context {T : Type} `{Num T}.

  Definition law_frame (p p' : particle T) : Prop :=
    p' = p <| pm := pm p' |> <| pstress := pstress p' |> <| pdstress := pdstress p' |>
           <| pde_ij := pde_ij p' |> <| pde_kk := pde_kk p' |> <| psigma_kk := psigma_kk p' |>
           <| pdev := pdev p' |> <| pdev_d := pdev_d p' |> <| pgammadot := pgammadot p' |>
           <| ppressure := ppressure p' |> <| psigmav := psigmav p' |> <| psigmah := psigmah p' |>
           <| pyield := pyield p' |> <| pI := pI p' |> <| pmu := pmu p' |>
           <| peta := peta p' |> <| peta_lim := peta_lim p' |>.

  Lemma law_effect P S0 S ip p (G : grid T) p' G' : apply_law P S0 S ip p G = Ok (p', G') ->
    law_frame p p' /\ vis_frame G G' /\ (forall n, slens n G -> slens n G') /\
    (s_law S <> ElasticTime -> pm p' = pm p) /\ (s_law S <> Bingham -> pstress p' = pstress p).
  Proof.
    unfold apply_law. destruct (s_law S) eqn:EL; intros E; try discriminate E.
    - injection E as <- <-. split; [destruct p; reflexivity|]. split; [apply vis_frame_refl|]. auto.
    - unfold elastic in E. pbinds E. injection E as <- <-.
      match goal with E : visualise _ _ _ _ = Ok _ |- _ => apply visualise_ok in E; destruct E end.
      split; [destruct p; reflexivity|]. do 3 (split; auto).
    - unfold elastic_time in E. pbinds E. injection E as <- <-.
      match goal with E : visualise _ _ _ _ = Ok _ |- _ => apply visualise_ok in E; destruct E end.
      split; [destruct p; reflexivity|]. do 2 (split; auto). split; auto. congruence.
    - unfold von_mises in E. pbinds E. injection E as <- <-.
      match goal with E : visualise _ _ _ _ = Ok _ |- _ => apply visualise_ok in E; destruct E end.
      split; [destruct p; reflexivity|]. do 3 (split; auto).
    - unfold dp in E. pbinds E.
      destruct (RK4 _ _ _) as [ds [pp qq]] eqn:ER. pbinds E. injection E as <- <-.
      match goal with E : visualise _ _ _ _ = Ok _ |- _ => apply visualise_ok in E; destruct E end.
      split; [destruct p; reflexivity|]. do 3 (split; auto).
    - unfold dp_rate in E. pbinds E.
      destruct (dp_rate_guts _ _ _ _ _ _ _) as [ds [pp qq]] eqn:ER. pbinds E. injection E as <- <-.
      match goal with E : visualise _ _ _ _ = Ok _ |- _ => apply visualise_ok in E; destruct E end.
      split; [destruct p; reflexivity|]. do 3 (split; auto).
    - unfold viscous in E. pbinds E. injection E as <- <-.
      match goal with E : visualise _ _ _ _ = Ok _ |- _ => apply visualise_ok in E; destruct E end.
      split; [destruct p; reflexivity|]. do 3 (split; auto).
    - unfold bingham in E. pbinds E. injection E as <- <-.
      match goal with E : visualise _ _ _ _ = Ok _ |- _ => apply visualise_ok in E; destruct E end.
      split; [destruct p; reflexivity|]. do 2 (split; auto). split; auto. congruence.
    - unfold ken_kamrin in E. pbinds E. injection E as <- <-.
      match goal with E : visualise _ _ _ _ = Ok _ |- _ => apply visualise_ok in E; destruct E end.
      split; [destruct p; reflexivity|]. do 3 (split; auto).
    - unfold pouliquen in E. pbinds E. destruct (negb _); [discriminate|]. pbinds E. injection E as <- <-.
      match goal with E : visualise _ _ _ _ = Ok _ |- _ => apply visualise_ok in E; destruct E end.
      split; [destruct p; reflexivity|]. do 3 (split; auto).
    - unfold linear_mu in E. pbinds E. injection E as <- <-.
      match goal with E : visualise _ _ _ _ = Ok _ |- _ => apply visualise_ok in E; destruct E end.
      split; [destruct p; reflexivity|]. do 3 (split; auto).
    - unfold ken_simple in E. pbinds E. destruct (negb _); [discriminate|]. pbinds E. injection E as <- <-.
      match goal with E : visualise _ _ _ _ = Ok _ |- _ => apply visualise_ok in E; destruct E end.
      split; [destruct p; reflexivity|]. do 3 (split; auto).
  Qed.
End Frame.
