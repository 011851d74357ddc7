(** * How the list of points evolves through a step. *)
From Coq Require Import ZArith List Bool Arith Lia.
From Verif Require Import State Spec LibList ModelGrid ModelConstit ModelParticle ModelMPList ModelIntegr
  ModelMain SpecStep ProofsMap ProofsInOut.
Import ListNotations.

(** ** Subsequences *)
Lemma subseq_refl {A} (l : list A) : subseq l l.
Proof. induction l; constructor; auto. Qed.
Lemma subseq_trans {A} (l m n : list A) : subseq l m -> subseq m n -> subseq l n.
Proof.
  intros H1 H2. revert l H1. induction H2 as [|a m n H IH|a m n H IH]; intros l H1.
  - inversion H1; constructor.
  - inversion H1; subst; constructor; auto.
  - constructor. auto.
Qed.
Lemma subseq_app_r {A} (l m n : list A) : subseq l (m ++ n) -> exists a b, l = a ++ b /\ subseq a m /\ subseq b n.
Proof.
  revert l. induction m as [|x m IH]; intros l H; cbn in H.
  - exists [], l. split; [reflexivity|]. split; [constructor|exact H].
  - inversion H as [|? l' ? H' |? l' ? H']; subst.
    + destruct (IH _ H') as (a & b & -> & HA & HB). exists (x :: a), b. split; [reflexivity|]. split; [constructor; exact HA|exact HB].
    + destruct (IH _ H') as (a & b & -> & HA & HB). exists a, b. split; [reflexivity|]. split; [constructor; exact HA|exact HB].
Qed.
Lemma subseq_Forall {A} (Q : A -> Prop) (l m : list A) : subseq l m -> Forall Q m -> Forall Q l.
Proof. induction 1; intros F; [constructor|inversion F; subst; constructor; auto|inversion F; subst; auto]. Qed.
Lemma subseq_in {A} (l m : list A) a : subseq l m -> In a l -> In a m.
Proof. induction 1; cbn; intuition. Qed.
Lemma subseq_Forall2 {A B} (R : A -> B -> Prop) (l' m' : list B) (m : list A) :
  subseq l' m' -> Forall2 R m m' -> exists l, subseq l m /\ Forall2 R l l'.
Proof.
  intros H. revert m. induction H as [|a l m' H IH|a l m' H IH]; intros m F; inversion F; subst.
  - exists []. split; constructor.
  - match goal with F : Forall2 R _ m' |- _ => destruct (IH _ F) as (lx & SX & F0) end. exists (x :: lx). split; constructor; auto.
  - match goal with F : Forall2 R _ m' |- _ => destruct (IH _ F) as (lx & SX & F0) end. exists lx. split; [constructor; auto|auto].
Qed.
Lemma Forall2_app_l {A B} (R : A -> B -> Prop) a b l : Forall2 R (a ++ b) l ->
  exists la lb, l = la ++ lb /\ Forall2 R a la /\ Forall2 R b lb.
Proof.
  revert l. induction a as [|x a IH]; intros l F; cbn in F.
  - exists [], l. auto.
  - inversion F; subst. destruct (IH _ H3) as (la & lb & -> & A1 & B1). exists (y :: la), lb. split; [reflexivity|]. auto.
Qed.
Lemma Forall2_trans {A} (R : A -> A -> Prop) (l m n : list A) : (forall a b c, R a b -> R b c -> R a c) ->
  Forall2 R l m -> Forall2 R m n -> Forall2 R l n.
Proof.
  intros HT H. revert n. induction H as [|x y l m Hxy H IH]; intros n F; inversion F; subst; constructor; eauto.
Qed.
Lemma Forall2_comp {A B C} (R : A -> B -> Prop) (Q : B -> C -> Prop) l m n : Forall2 R l m -> Forall2 Q m n ->
  Forall2 (fun a c => exists b, R a b /\ Q b c) l n.
Proof.
  intros H. revert n. induction H as [|x y l m Hxy H IH]; intros n F; inversion F; subst; constructor; eauto.
Qed.
Lemma Forall2_refl {A} (R : A -> A -> Prop) l : (forall a, R a a) -> Forall2 R l l.
Proof. intros; induction l; constructor; auto. Qed.

Lemma app_eq_len {A} (a c b d : list A) : a ++ b = c ++ d -> length a = length c -> a = c /\ b = d.
Proof.
  revert c. induction a as [|x a IH]; intros [|y c] E L; cbn in *; try discriminate; [auto|].
  injection E as -> E. destruct (IH c E) as [-> ->]; [lia|]. auto.
Qed.

Section Hist.
  Context {T : Type} `{Num T}.
  (** [R1 S p p']: how a point of a phase with parameters [S] may change;
      [Fr S p]: what holds of a point that enters. *)
  Context (R1 : solid T -> particle T -> particle T -> Prop) (Fr : gridp T -> solid T -> particle T -> Prop).

  Definition evolves (P : gridp T) (outs ins : bool) (ph ph' : phase T) : Prop :=
    ph_sol ph' = ph_sol ph /\ ph_n ph' = length (ph_pts ph') /\
    exists sel kept new, subseq sel (ph_pts ph) /\ Forall2 (R1 (ph_sol ph)) sel kept /\
      Forall (Fr P (ph_sol ph)) new /\ ph_pts ph' = kept ++ new /\
      (outs = false -> sel = ph_pts ph) /\ (ins = false -> new = []).

  (** What must be known of each function that changes points. *)
  Record stable : Prop := {
    st_refl : forall S p, R1 S p p;
    st_trans : forall S p q r, R1 S p q -> R1 S q r -> R1 S p r;
    st_fresh : forall P S p q, R1 S p q -> Fr P S p -> Fr P S q;
    st_grav : forall S P k p, R1 S p (increment_gravity P k p);
    st_ref : forall S P G p p', get_reference_node P G p = Ok p' -> R1 S p p';
    st_basis : forall S G p p', get_basis_functions G p = Ok p' -> R1 S p p';
    st_stress : forall P S0 S k p p1 p2 G G', update_strain P G p = Ok p1 ->
      update_stress P S0 S k p1 G = Ok (p2, G') -> R1 S p p2;
    st_phi : forall S P G p p', map_phi_to_mp P G p = Ok p' -> R1 S p p';
    st_norm : forall S p, R1 S p (p <| pphi := normalise (pphi p) |>);
    st_move : forall S P G p sv p' sv', move_material_point P G p sv = Ok (p', sv') -> R1 S p p';
    st_rigid : forall S P p p', move_rigid_point P p = Ok p' -> R1 S p p';
    st_wrap : forall S P p, R1 S p (wrap P p);
    st_init : forall P S0 S x y p, particle_init P S0 S x y (s_phi S) = Ok p -> Fr (pG P) S p
  }.
  Context (ST : stable).

  Lemma evolves_refl P o i ph : ph_n ph = length (ph_pts ph) -> evolves P o i ph ph.
  Proof.
    intros C. split; [reflexivity|]. split; [exact C|]. exists (ph_pts ph), (ph_pts ph), [].
    split; [apply subseq_refl|]. split; [apply Forall2_refl; intros; apply ST|]. split; [constructor|].
    split; [rewrite app_nil_r; reflexivity|]. split; reflexivity.
  Qed.
  Lemma evolves_trans P o i o' i' ph ph' ph'' : evolves P o i ph ph' -> evolves P o' i' ph' ph'' ->
    evolves P (o || o') (i || i') ph ph''.
  Proof.
    intros (S1 & C1 & sel1 & k1 & n1 & U1 & F1 & N1 & E1 & O1 & I1) (S2 & C2 & sel2 & k2 & n2 & U2 & F2 & N2 & E2 & O2 & I2).
    rewrite E1 in U2, O2. rewrite S1 in F2, N2.
    destruct (subseq_app_r _ _ _ U2) as (a & b & -> & UA & UB).
    destruct (Forall2_app_l _ _ _ _ F2) as (ka & kb & -> & FA & FB).
    destruct (subseq_Forall2 _ _ _ _ UA F1) as (sel & UU & FF).
    split; [congruence|]. split; [exact C2|]. exists sel, ka, (kb ++ n2).
    split; [eapply subseq_trans; eauto|]. split; [eapply Forall2_trans; eauto; apply ST|]. split.
    - apply Forall_app. split; [|exact N2].
      assert (NB := subseq_Forall _ _ _ UB N1). clear - ST FB NB. induction FB; inversion NB; subst; constructor; auto.
      eapply (st_fresh ST); eauto.
    - split; [rewrite E2, app_assoc; reflexivity|]. split.
      + intros Ho. apply orb_false_iff in Ho. destruct Ho as [Ho Ho']. specialize (O1 Ho). specialize (O2 Ho').
        assert (a = k1) as ->.
        { assert (la : length a <= length k1) by (clear - UA; induction UA; cbn; lia).
          assert (lb : length b <= length n1) by (clear - UB; induction UB; cbn; lia).
          pose proof (f_equal (@length _) O2) as Q. rewrite !app_length in Q.
          assert (length a = length k1) by lia. destruct (app_eq_len _ _ _ _ O2); auto. }
        subst sel1. clear - UU FF F1 ST. apply Forall2_len in FF, F1.
        assert (Q : length sel = length (ph_pts ph)) by lia. clear - UU Q. induction UU; cbn in *; auto.
        * f_equal. auto.
        * exfalso. assert (length l <= length m) by (clear - UU; induction UU; cbn; lia). lia.
      + intros Hi. apply orb_false_iff in Hi. destruct Hi as [Hi Hi']. rewrite (I2 Hi'). specialize (I1 Hi). subst n1.
        inversion UB; subst. inversion FB; subst. reflexivity.
  Qed.

  Definition Levolves (P : gridp T) (o i : bool) (L L' : list (phase T)) : Prop := Forall2 (evolves P o i) L L'.
  Definition all_counted (L : list (phase T)) : Prop := Forall (fun ph => ph_n ph = length (ph_pts ph)) L.

  Lemma Lev_refl P o i L : all_counted L -> Levolves P o i L L.
  Proof. induction 1; constructor; [apply evolves_refl; auto|exact IHForall]. Qed.
  Lemma Lev_trans P o i o' i' L L' L'' : Levolves P o i L L' -> Levolves P o' i' L' L'' -> Levolves P (o || o') (i || i') L L''.
  Proof.
    intros H1. revert L''. induction H1; intros L'' H2; inversion H2; subst; constructor.
    - eapply evolves_trans; eauto.
    - apply IHForall2. assumption.
  Qed.
  Lemma Lev_counted P o i L L' : Levolves P o i L L' -> all_counted L'.
  Proof. induction 1; constructor; auto. apply H0. Qed.
  Lemma Lev_weaken P o i o' i' L L' : (o = true -> o' = true) -> (i = true -> i' = true) -> Levolves P o i L L' -> Levolves P o' i' L L'.
  Proof.
    intros Ho Hi. unfold Levolves. induction 1; constructor; auto. destruct H0 as (A & B & sel & k & n & C & D & E & F & G & I).
    split; [auto|]. split; [auto|]. exists sel, k, n. repeat (split; [assumption|]). split; intros Q.
    - apply G. destruct o; [rewrite Ho in Q by reflexivity; discriminate|reflexivity].
    - apply I. destruct i; [rewrite Hi in Q by reflexivity; discriminate|reflexivity].
  Qed.

  (** Loops that change every point. *)
  Lemma evolves_points P (ph ph' : phase T) : ph_sol ph' = ph_sol ph -> ph_n ph' = ph_n ph ->
    ph_n ph = length (ph_pts ph) -> Forall2 (R1 (ph_sol ph)) (ph_pts ph) (ph_pts ph') -> evolves P false false ph ph'.
  Proof.
    intros HS HN HC F. pose proof (Forall2_len _ _ _ F). split; [auto|]. split; [congruence|].
    exists (ph_pts ph), (ph_pts ph'), []. split; [apply subseq_refl|]. split; [auto|]. split; [constructor|].
    split; [rewrite app_nil_r; reflexivity|]. auto.
  Qed.

  Lemma points_ev {S} P (f : nat -> phase T -> particle T -> S -> res (particle T * S)) L s L' s' : all_counted L ->
    (forall k ph p s p' s', f k ph p s = Ok (p', s') -> R1 (ph_sol ph) p p') ->
    points f L s = Ok (L', s') -> Levolves P false false L L'.
  Proof.
    intros HC Hf E. unfold points in E.
    apply (forM_rel _ (fun _ => True) (fun ph ph' => ph_n ph = length (ph_pts ph) -> evolves P false false ph ph')) in E; auto.
    - destruct E as [_ F]. clear - F HC. revert HC. induction F; intros HC; inversion HC; subst; constructor; [auto|apply IHF; auto].
    - intros k ph s1 ph' s2 _ _ E1. split; [auto|]. intros C. pbinds E1. injection E1 as <- <-.
      apply (each_rel _ (fun _ => True) (R1 (ph_sol ph))) in E0; auto.
      + destruct E0 as [_ F]. apply evolves_points; auto.
      + intros a s3 a' s4 _ _ E2. split; [auto|]. eauto.
      + intros. apply ST.
  Qed.
  Lemma points__ev P (f : nat -> phase T -> particle T -> res (particle T)) L L' : all_counted L ->
    (forall k ph p p', f k ph p = Ok p' -> R1 (ph_sol ph) p p') ->
    points_ f L = Ok L' -> Levolves P false false L L'.
  Proof.
    intros HC Hf E. unfold points_ in E. pbinds E. injection E as <-. eapply points_ev in E0; eauto.
    intros k ph p s p' s' E1. cbv beta in E1. pbinds E1. injection E1 as <- <-. eauto.
  Qed.

  Lemma phases_ev P o i (f : phase T -> res (phase T)) L L' : all_counted L ->
    (forall ph ph', ph_n ph = length (ph_pts ph) -> f ph = Ok ph' -> evolves P o i ph ph') ->
    phases_ f L = Ok L' -> Levolves P o i L L'.
  Proof.
    intros HC Hf E. apply phases_ok in E. revert HC. induction E; intros HC; inversion HC; subst; constructor; [auto|apply IHE; auto].
  Qed.

  Lemma move_ev P G L L' : all_counted L -> move_all P G L = Ok L' -> Levolves (pG P) false false L L'.
  Proof.
    intros HC E. apply (phases_ev (pG P) false false) in E; auto. clear L L' HC E. intros ph ph' C E. cbv beta in E.
    destruct (is_rigid (s_law (ph_sol ph))); pbinds E; injection E as <-; apply evolves_points; auto.
    - apply (each_rel _ (fun _ => True) (R1 (ph_sol ph))) in E0; auto.
      + destruct E0 as [_ F]. exact F.
      + intros a s3 a' s4 _ _ E2. split; [auto|]. pbinds E2. injection E2 as <- <-. eapply (st_rigid ST); eauto.
      + intros. apply ST.
    - apply (each_rel _ (fun _ => True) (R1 (ph_sol ph))) in E0; auto.
      + destruct E0 as [_ F]. exact F.
      + intros a s3 a' s4 _ _ E2. split; [auto|]. eapply (st_move ST); eauto.
      + intros. apply ST.
  Qed.

  (** Deletion. *)
  Lemma del_at_sub {A} i (l : list A) : subseq (del_at i l) l.
  Proof. revert i. induction l as [|a l IH]; intros [|i]; cbn; constructor; auto using subseq_refl. Qed.
  Lemma del_at_len {A} i (l : list A) : i < length l -> length (del_at i l) = length l - 1.
  Proof. revert i. induction l as [|a l IH]; intros [|i] Hi; cbn in *; try lia. rewrite IH by lia. lia. Qed.
  Lemma delete_ev P out ph ph' : ph_n ph = length (ph_pts ph) -> delete_where out ph = Ok ph' -> evolves P true false ph ph'.
  Proof.
    unfold delete_where. intros C E. revert C E. generalize (rev (seq 0 (ph_n ph))). intros l. revert ph.
    induction l as [|j l IH]; intros ph C E; cbn [foldM] in E.
    - injection E as <-. apply evolves_refl. exact C.
    - apply bind_ok in E. destruct E as (ph1 & E1 & E). pbinds E1. injection E1 as <-.
      assert (Q : evolves P true false ph (if a0 then ph <| ph_pts := del_at j (ph_pts ph) |> <| ph_n := (ph_n ph - 1)%nat |> else ph)).
      { destruct a0; [|apply evolves_refl; exact C]. apply (nth_res_ok _ _ _ a) in E0. destruct E0 as [Hj _].
        split; [reflexivity|]. split; [cbn; rewrite del_at_len by exact Hj; lia|].
        exists (del_at j (ph_pts ph)), (del_at j (ph_pts ph)), []. split; [apply del_at_sub|].
        split; [apply Forall2_refl; intros; apply ST|]. split; [constructor|].
        split; [cbn; rewrite app_nil_r; reflexivity|]. split; [discriminate|reflexivity]. }
      change true with (true || true)%bool. change false with (false || false)%bool.
      eapply evolves_trans; [exact Q|]. apply IH; [|exact E]. apply Q.
  Qed.

  (** Inlets. *)
  Lemma add_ev P S0 x y ph ph' : ph_n ph = length (ph_pts ph) -> add_point P S0 x y ph = Ok ph' -> evolves (pG P) false true ph ph'.
  Proof.
    intros C E. unfold add_point in E. pbinds E. injection E as <-. split; [reflexivity|].
    split; [cbn; rewrite app_length; cbn; lia|]. exists (ph_pts ph), (ph_pts ph), [a].
    split; [apply subseq_refl|]. split; [apply Forall2_refl; intros; apply ST|].
    split; [constructor; [eapply (st_init ST); eauto|constructor]|]. split; [reflexivity|]. split; [reflexivity|discriminate].
  Qed.
  Lemma add_many_ev {A} P (g : phase T -> A -> res (phase T)) l :
    (forall a ph ph', ph_n ph = length (ph_pts ph) -> g ph a = Ok ph' -> evolves P false true ph ph') ->
    forall ph ph', ph_n ph = length (ph_pts ph) -> foldM g ph l = Ok ph' -> evolves P false true ph ph'.
  Proof.
    intros Hg. induction l as [|a l IH]; intros ph ph' C E; cbn [foldM] in E.
    - injection E as <-. apply evolves_refl. exact C.
    - apply bind_ok in E. destruct E as (ph1 & E1 & E). apply Hg in E1; [|exact C].
      change true with (true || true)%bool. change false with (false || false)%bool.
      eapply evolves_trans; [exact E1|]. apply IH; [apply E1|exact E].
  Qed.

  Lemma inout_ev P L L' : all_counted L -> inout P L = Ok L' ->
    Levolves (pG P) (outlet_left (pB P) || outlet_bottom (pB P)) (inlet_right (pB P) || inlet_top (pB P)) L L'.
  Proof.
    intros C E. unfold inout in E.
    apply bind_ok in E. destruct E as (L1 & E1 & E). apply bind_ok in E. destruct E as (L2 & E2 & E).
    apply bind_ok in E. destruct E as (L3 & E3 & E). apply bind_ok in E. destruct E as (L4 & E4 & E).
    assert (V1 : Levolves (pG P) (outlet_left (pB P)) false L L1).
    { destruct (outlet_left (pB P)); [|injection E1 as <-; apply Lev_refl; auto].
      apply (phases_ev (pG P) true false) in E1; auto. intros. eapply delete_ev; eauto. }
    assert (V2 : Levolves (pG P) (outlet_bottom (pB P)) false L1 L2).
    { pose proof (Lev_counted _ _ _ _ _ V1) as C1.
      destruct (outlet_bottom (pB P)); [|injection E2 as <-; apply Lev_refl; auto].
      apply (phases_ev (pG P) true false) in E2; auto. intros. eapply delete_ev; eauto. }
    assert (V3 : Levolves (pG P) false (inlet_right (pB P)) L2 L3).
    { pose proof (Lev_counted _ _ _ _ _ V2) as C1.
      destruct (inlet_right (pB P)); [|injection E3 as <-; apply Lev_refl; auto].
      unfold inlet_right_f in E3. apply bind_ok in E3. destruct E3 as (S0 & _ & E3).
      apply (phases_ev (pG P) false true) in E3; auto. intros ph ph' Cp Ep. cbv beta in Ep. apply bind_ok in Ep. destruct Ep as (due & _ & Ep).
      destruct due; [|injection Ep as <-; apply evolves_refl; exact Cp].
      eapply add_many_ev; [|exact Cp|exact Ep]. intros y q q' Cq Eq. cbv beta in Eq. pbinds Eq. eapply add_ev; eauto. }
    assert (V4 : Levolves (pG P) false (inlet_top (pB P)) L3 L4).
    { pose proof (Lev_counted _ _ _ _ _ V3) as C1.
      destruct (inlet_top (pB P)); [|injection E4 as <-; apply Lev_refl; auto].
      unfold inlet_top_f in E4. apply bind_ok in E4. destruct E4 as (S0 & _ & E4).
      apply (phases_ev (pG P) false true) in E4; auto. intros ph ph' Cp Ep. cbv beta in Ep. apply bind_ok in Ep. destruct Ep as (due & _ & Ep).
      destruct due; [|injection Ep as <-; apply evolves_refl; exact Cp].
      pbinds Ep. eapply add_ev; eauto. }
    assert (V5 : Levolves (pG P) false false L4 L').
    { pose proof (Lev_counted _ _ _ _ _ V4) as C1. destruct (cyclic_lr (pB P)); [|injection E as <-; apply Lev_refl; auto].
      eapply points__ev in E; eauto. intros k ph p p' Q. injection Q as <-. apply ST. }
    pose proof (Lev_trans _ _ _ _ _ _ _ _ (Lev_trans _ _ _ _ _ _ _ _ (Lev_trans _ _ _ _ _ _ _ _ (Lev_trans _ _ _ _ _ _ _ _ V1 V2) V3) V4) V5) as V.
    eapply Lev_weaken; [| |exact V]; rewrite !orb_false_r, ?orb_false_l; auto.
  Qed.

  Lemma step_ev uf fill s s' : all_counted (sL s) -> time_march uf fill s = Ok s' ->
    let P := sP s <| p_loads := uf (sP s) |> in let B := pB (sP s) in
    Levolves (pG P) (outlet_left B || outlet_bottom B) (inlet_right B || inlet_top B) (sL s) (sL s').
  Proof.
    intros C E P B. unfold time_march in E. cbv zeta in E. fold P in E.
    apply bind_ok in E. destruct E as (S0 & _ & E).
    apply bind_ok in E. destruct E as (L1 & E1 & E).
    apply bind_ok in E. destruct E as (L2 & E2 & E).
    apply bind_ok in E. destruct E as (L3 & E3 & E).
    apply bind_ok in E. destruct E as (? & _ & E).
    apply bind_ok in E. destruct E as (G1 & _ & E).
    apply bind_ok in E. destruct E as (G2 & _ & E).
    apply bind_ok in E. destruct E as ([L4 G3] & E4 & E).
    apply bind_ok in E. destruct E as (G4 & _ & E).
    apply bind_ok in E. destruct E as (G5 & _ & E).
    apply bind_ok in E. destruct E as (G6 & _ & E).
    apply bind_ok in E. destruct E as ([L5 G8] & E5 & E).
    apply bind_ok in E. destruct E as (L6 & E6 & E).
    apply bind_ok in E. destruct E as (L7 & E7 & E). injection E as <-. cbn [sL].
    assert (V1 : Levolves (pG P) false false (sL s) L1).
    { eapply points__ev in E1; eauto. intros k ph p p' Q. injection Q as <-. apply ST. }
    assert (V2 : Levolves (pG P) false false L1 L2).
    { eapply points__ev in E2; eauto using Lev_counted. intros k ph p p' Q. eapply (st_ref ST); eauto. }
    assert (V3 : Levolves (pG P) false false L2 L3).
    { eapply points__ev in E3; eauto using Lev_counted. intros k ph p p' Q. eapply (st_basis ST); eauto. }
    assert (V4 : Levolves (pG P) false false L3 L4).
    { unfold stress_strain in E4. apply bind_ok in E4. destruct E4 as (S1 & _ & E4).
      apply bind_ok in E4. destruct E4 as ([L4' G4'] & E4a & E4).
      assert (L4' = L4) as ->.
      { destruct (cyclic_lr (pB P)); [|congruence]. apply bind_ok in E4. destruct E4 as (? & _ & E4). congruence. }
      eapply points_ev in E4a; eauto using Lev_counted. intros k ph p g p' g' Q. cbv beta in Q. pbinds Q. eapply (st_stress ST); eauto. }
    assert (V5 : Levolves (pG P) false false L4 L5).
    { destruct (p_seg P).
      2:{ injection E5 as <- <-. apply Lev_refl. eauto using Lev_counted. }
      unfold segregate in E5. apply bind_ok in E5. destruct E5 as (S1 & _ & E5). apply bind_ok in E5. destruct E5 as (r & _ & E5).
      cbv zeta in E5. apply bind_ok in E5. destruct E5 as (G9 & _ & E5). apply bind_ok in E5. destruct E5 as (L5' & E5a & E5).
      apply bind_ok in E5. destruct E5 as (G10 & _ & E5). injection E5 as -> _.
      unfold move_grainsize in E5a. apply bind_ok in E5a. destruct E5a as (L5a & E5b & E5c).
      assert (V5a : Levolves (pG P) false false L4 L5a).
      { eapply points__ev in E5b; eauto using Lev_counted. intros k ph p p' Q. eapply (st_phi ST); eauto. }
      destruct (p_norm P).
      - change false with (false || false)%bool. eapply Lev_trans; [exact V5a|].
        eapply points__ev in E5c; eauto using Lev_counted. intros k ph p p' Q. injection Q as <-. apply (st_norm ST).
      - injection E5c as <-. exact V5a. }
    assert (V6 : Levolves (pG P) false false L5 L6).
    { eapply move_ev in E6; eauto using Lev_counted. }
    apply inout_ev in E7; eauto using Lev_counted.
    pose proof (Lev_trans _ _ _ _ _ _ _ _ (Lev_trans _ _ _ _ _ _ _ _ (Lev_trans _ _ _ _ _ _ _ _ (Lev_trans _ _ _ _ _ _ _ _ (Lev_trans _ _ _ _ _ _ _ _ (Lev_trans _ _ _ _ _ _ _ _ V1 V2) V3) V4) V5) V6) E7) as V.
    exact V.
  Qed.
End Hist.

(** ** What each function leaves alone *)
Section Frames.
  Context {T : Type} `{Num T}.

  Lemma grav_frame P k (p : particle T) : increment_gravity P k p = p <| pb := pb (increment_gravity P k p) |>.
  Proof. unfold increment_gravity. destruct (Nat.eqb k 0), p; reflexivity. Qed.
  Lemma ref_frame P G (p p' : particle T) : get_reference_node P G p = Ok p' -> p' = p <| pnstar := pnstar p' |>.
  Proof.
    unfold get_reference_node. destruct (nint _) as [z|[]]; intros E; try discriminate; injection E as <-; destruct p; reflexivity.
  Qed.
  Lemma basis_frame G (p p' : particle T) : get_basis_functions G p = Ok p' -> p' = p <| pN := pN p' |> <| pGr := pGr p' |>.
  Proof.
    unfold get_basis_functions. intros E. pbinds E. destruct (shape _ _ _). injection E as <-. destruct p; reflexivity.
  Qed.
  Lemma strain_frame P G (p p' : particle T) : update_strain P G p = Ok p' ->
    p' = p <| pdstrain := pdstrain p' |> <| pL := pL p' |> <| pstrain := pstrain p' |>.
  Proof. unfold update_strain. intros E. pbinds E. injection E as <-. destruct p; reflexivity. Qed.
  Lemma phi_frame P G (p p' : particle T) : map_phi_to_mp P G p = Ok p' -> p' = p <| pphi := pphi p' |> <| ppk := ppk p' |>.
  Proof.
    unfold map_phi_to_mp, four. intros E.
    eapply (foldM_inv _ (fun q => q = p <| pphi := pphi q |> <| ppk := ppk q |>)) in E; [exact E|destruct p; reflexivity|].
    intros q r q' _ Q E1. cbv beta in E1. pbinds E1. destruct (p_Mtol P <? _)%num.
    - pbinds E1. injection E1 as <-. rewrite Q. destruct p; reflexivity.
    - injection E1 as <-. exact Q.
  Qed.
  Lemma move_frame P G (p p' : particle T) sv sv' : move_material_point P G p sv = Ok (p', sv') ->
    p' = p <| px := px p' |> <| pv := pv p' |> <| prho := prho p' |>.
  Proof.
    unfold move_material_point. intros E. apply bind_ok in E. destruct E as ([q sq] & E1 & E). apply bind_ok in E. destruct E as (rho & _ & E).
    injection E as <- <-. unfold four in E1.
    eapply (foldM_inv _ (fun s => fst s = p <| px := px (fst s) |> <| pv := pv (fst s) |>)) in E1; [|destruct p; reflexivity|].
    - cbn [fst] in E1. rewrite E1. destruct p; reflexivity.
    - intros [a sa] r [a' sa'] _ Q E2. cbn [fst] in *. pbinds E2. destruct (p_Mtol P <? _)%num.
      + pbinds E2. rewrite Q in E2. cbn [pv set] in E2. destruct (pv a); injection E2 as <- _; destruct p; reflexivity.
      + injection E2 as <- _. exact Q.
  Qed.
  Lemma rigid_frame P (p p' : particle T) : move_rigid_point P p = Ok p' -> p' = p <| px := px p' |> <| pv := pv p' |>.
  Proof. unfold move_rigid_point. intros E. pbinds E. injection E as <-. destruct p; reflexivity. Qed.
  Lemma wrap_frame P (p : particle T) : wrap P p = p <| px := px (wrap P p) |>.
  Proof. unfold wrap. cbv zeta. repeat match goal with |- context [if ?b then _ else _] => destruct b end; destruct p; reflexivity. Qed.
End Frames.

(** ** Runs *)
Section Runs.
  Context {T : Type} `{Num T}.
  Context (uf : params T -> loads T) (fill : list bool -> list T -> list T).

  Lemma step_params s s' : time_march uf fill s = Ok s' -> sP s' = sP s <| p_loads := uf (sP s) |>.
  Proof. intros E. unfold time_march in E. cbv zeta in E. pbinds E. injection E as <-. reflexivity. Qed.

  Lemma pass_inv s tr s' tr' : pass uf fill s tr = Ok (s', tr') ->
    exists s1 dt, time_march uf fill s = Ok s1 /\ sL s' = sL s1 /\ sG s' = sG s1 /\
      sP s' = sP s <| p_loads := uf (sP s) |> <| p_t := (p_t (sP s) + p_dt (sP s))%num |> <| p_tstep := (p_tstep (sP s) + 1)%Z |> <| p_dt := dt |>.
  Proof.
    intros E. unfold pass in E. apply bind_ok in E. destruct E as (s1 & E1 & E). exists s1.
    pose proof (step_params _ _ E1) as EP. cbv zeta in E.
    destruct (p_tf (sP s1) =? n0)%num; [discriminate|].
    apply bind_ok in E. destruct E as (b & _ & E). apply bind_ok in E. destruct E as (dt & _ & E). injection E as <- _.
    exists dt. split; [exact E1|]. split; [reflexivity|]. split; [reflexivity|]. cbn [sP set]. rewrite EP. reflexivity.
  Qed.

  Lemma march_reach fuel : forall s0 s tr s' tr', reach uf fill s0 s -> march uf fill fuel s tr = Some (Ok (s', tr')) -> reach uf fill s0 s'.
  Proof.
    induction fuel as [|fuel IH]; intros s0 s tr s' tr' R E; cbn [march] in E;
      destruct (p_t (sP s) <=? p_tf (sP s))%num; try discriminate; try (injection E as <- _; exact R).
    destruct (pass uf fill s tr) as [[s2 tr2]|] eqn:EP; [|discriminate]. eapply IH; [|exact E]. eapply reach_S; eauto.
  Qed.
  Lemma main_reach fuel s s' tr : main_loop uf fill fuel s = Some (Ok (s', tr)) -> reach uf fill s s'.
  Proof.
    unfold main_loop. destruct (march uf fill fuel s [EInitial]) as [[[s2 tr2]|]|] eqn:EM; try discriminate.
    intros E. injection E as <- _. eapply march_reach; [apply reach_0|exact EM].
  Qed.

  Lemma reach_const s s' : reach uf fill s s' -> pG (sP s') = pG (sP s) /\ pB (sP s') = pB (sP s) /\
    p_seg (sP s') = p_seg (sP s) /\ p_Mtol (sP s') = p_Mtol (sP s).
  Proof.
    induction 1 as [|s1 tr s2 tr' R IH E]; [auto|]. destruct (pass_inv _ _ _ _ E) as (s3 & dt & _ & _ & _ & EP).
    rewrite EP. exact IH.
  Qed.

  Lemma reach_ev R1 Fr s s' : stable (T := T) R1 Fr -> all_counted (sL s) -> reach uf fill s s' ->
    let B := pB (sP s) in
    Levolves R1 Fr (pG (sP s)) (outlet_left B || outlet_bottom B) (inlet_right B || inlet_top B) (sL s) (sL s').
  Proof.
    intros ST C R B. induction R as [|s1 tr s2 tr' R IH E].
    - apply Lev_refl; auto.
    - destruct (pass_inv _ _ _ _ E) as (s3 & dt & E3 & EL & _ & _). rewrite EL.
      apply (step_ev _ _ ST) in E3; [|eapply Lev_counted; exact IH].
      destruct (reach_const _ _ R) as (CG & CB & _). cbv zeta in E3. cbn [pG set] in E3.
      change (pG (sP s1 <| p_loads := uf (sP s1) |>)) with (pG (sP s1)) in E3. rewrite CG, CB in E3. fold B in E3.
      pose proof (Lev_trans _ _ ST _ _ _ _ _ _ _ _ IH E3) as V. rewrite !orb_diag in V. exact V.
  Qed.
End Runs.
