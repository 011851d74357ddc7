(** * The nodal fields of a step that segregates: C112. *)
From Coq Require Import ZArith Reals List Bool Arith Lra Lia.
From RecordUpdate Require Import RecordUpdate.
From Verif Require Import State NumR Spec SpecLaws SpecStep LibList LibR ModelGrid ModelConstit ModelParticle ModelMPList
  ModelIntegr ModelMain ProofsGrid ProofsMap ProofsP2G ProofsWalls ProofsLaws ProofsInOut ProofsHist Concrete
  ThmMapping ThmWalls ThmLaws ThmInOut ThmHist ProofsStep ProofsPoints ThmStep ThmSeg ThmFrac ThmSift ThmLocal ThmGrade
  ProofsRing ThmFields.
Import ListNotations.
Local Open Scope R_scope.

(** What the segregation step does to the nodal fields of the laws: the one of the viscosity is folded. *)
Lemma segregate_sget fill P L (G : grid R) L' G' : proper (pG P) -> length (f_eta G) = nodes (pG P) ->
  segregate fill P L G = Ok (L', G') ->
  (forall f, f <> Feta -> sget f G' = sget f G) /\
  forall k, (k < nodes (pG P))%nat -> nth k (f_eta G') 0 = tie (pG P) (fun k => nth k (f_eta G) 0) k.
Proof.
  intros HP HL E. unfold segregate in E. pbinds E. injection E as <- <-.
  match goal with X : calculate_phi_increment _ _ ?g = Ok ?h |- _ => assert (A : forall f, sget f h = sget f G) by
    (intros f; transitivity (sget f g); [unfold calculate_phi_increment in X; repeat (apply bind_ok in X; destruct X as (? & ? & X));
       injection X as <-; destruct f; reflexivity|unfold update_pk; destruct f; reflexivity]) end.
  match goal with H0 : cyc_fields _ _ _ = Ok _ |- _ => rename H0 into X end. unfold cyc_fields in X. cbn [foldM] in X.
  apply bind_ok in X. destruct X as (g1 & X & Y). injection Y as <-. apply bind_ok in X. destruct X as (l & X & Y). injection Y as <-.
  split.
  - intros f Hf. rewrite <- (A f). destruct f; (reflexivity || congruence).
  - rewrite (A Feta) in X. intros k Hk. 
    exact (proj2 (cyc_tie (pG P) HP nadd 0 (fun a : R => a) (f_eta G) l (fun a b => eq_refl) HL X) k Hk).
Qed.

(** C112.  After a step that segregates, in a box that nothing leaves or enters, the nodal fields are the sums over the
    points of C76, but for the viscosity: at the two ends of a row it is the sum over the points near both ends. *)
Lemma p_C112_fields : forall uf fill (s s' : state R), proper (pG (sP s)) -> grid_ok (pG (sP s)) (sG s) -> tight (sP s) ->
  p_seg (sP s) = true ->
  all_live (sL s) (fun ph p => in_dom (pG (sP s)) (px p) /\ s_law (ph_sol ph) <> Dp /\ s_law (ph_sol ph) <> DpRate) ->
  time_march uf fill s = Ok s' ->
  let total f k := pair_sum (sL s) (sL s')
    (fun S p p' => hat (pG (sP s)) (px p) k * (pm p' * shown (p_dt (sP s)) (s_law S) f p')) in
  (forall f k, f <> Fgammadot -> f <> Feta -> nth k (sget f (sG s')) 0 = total f k) /\
  forall j, (j < ny (pG (sP s)))%nat ->
    (forall i, (0 < i < nx (pG (sP s)) - 1)%nat ->
       nth (j * nx (pG (sP s)) + i) (f_eta (sG s')) 0 = total Feta (j * nx (pG (sP s)) + i)%nat) /\
    (forall i, i = 0%nat \/ i = (nx (pG (sP s)) - 1)%nat ->
       nth (j * nx (pG (sP s)) + i) (f_eta (sG s')) 0 =
         total Feta (j * nx (pG (sP s)))%nat + total Feta (j * nx (pG (sP s)) + (nx (pG (sP s)) - 1))%nat).
Proof.
  intros uf fill s s' HP HG HT Hs HL E total. pose proof HT as (Hc & O1 & O2 & I1 & I2).
  destruct (march_seg uf fill s s' HP HG ltac:(intros ph p A B; apply (HL ph p A B)) Hc E)
    as (S0 & L1 & L3 & L4 & L4s & L5 & G1 & G3 & G4 & G5 & G6 & _ & _ & R1 & R3 & EP & FP & ES & R4 & VF & LO & EF & LF & EB & _ & _ & EM & _ & EG & RG & _ & RM & EI).
  set (P := sP s <| p_loads := uf (sP s) |>) in *.
  assert (EI' : L5 = sL s').
  { unfold inout in EI. cbn [bind] in EI. change (pB P) with (pB (sP s)) in EI. rewrite Hc, O1, O2, I1, I2 in EI. injection EI; auto. }
  subst L5.
  change (p_seg P) with (p_seg (sP s)) in EG. rewrite Hs in EG.
  assert (SL : slens (nodes (pG P)) G1).
  { intros g. unfold frame_all in FP. rewrite FP. replace (sget g _) with (sget g (wipe (sP s) (sG s))) by (destruct g; reflexivity).
    rewrite wipe_sget. apply repeat_length. }
  assert (E6 : forall f, f <> Fgammadot -> sget f (calculate_gammadot fill P G6) = sget f G3).
  { intros f Hf. replace (sget f (calculate_gammadot fill P G6)) with (sget f G6) by (destruct f; (reflexivity || congruence)).
    rewrite (momentum_sget _ _ _ f EM), (force_sget _ _ f (BCs_frame _ _ _ _ EB)).
    destruct (force_loop_spec P L4 G3 G4 LF EF) as (F & _). unfold frame_f in F. rewrite F. destruct f; reflexivity. }
  assert (A3 : Forall2 (fun ph1 ph2 => ph_sol ph1 = ph_sol ph2 /\
      Forall2 ((fun _ p p' => px p = px p' /\ (in_dom (pG (sP s)) (px p) -> located (pG (sP s)) p')) (ph_sol ph1)) (live ph1) (live ph2)) (sL s) L3).
  { apply (pair_trans (fun _ p p' => px p = px p') (fun _ p p' => in_dom (pG (sP s)) (px p) /\ p' = locate (pG (sP s)) p)
      (fun _ p p' => px p = px p' /\ (in_dom (pG (sP s)) (px p) -> located (pG (sP s)) p')) _ L1).
    - intros S a b c Hab [Hd ->]. rewrite Hab. split; [reflexivity|]. intros _. apply locate_located. exact Hd.
    - apply (Lrel_pair _ (fun _ p p' => px p = px p') _ _) with (2 := R1). intros ph p p' [b ->]. reflexivity.
    - apply (Lrel_pair _ (fun _ p p' => in_dom (pG (sP s)) (px p) /\ p' = locate (pG (sP s)) p) _ _) with (2 := R3). intros ph p p' X. exact X. }
  assert (T3 : forall f k, nth k (sget f G3) 0 = total f k).
  { intros f k. rewrite (stage_shows P L3 G1 L4 G3 HP SL Hc) with (k := k) (f := f); [|clear - A3 HL|exact ES].
    2:{ intros ph3 p3 H1 H2. unfold all_live in HL. induction A3 as [|ph0 ph ls L3 [E F] A IH]; [destruct H1|].
        destruct H1 as [<-|H1]; [|apply IH; auto; intros; apply HL; auto; right; auto].
        assert (HL0 : forall p, In p (live ph0) -> in_dom (pG (sP s)) (px p) /\ s_law (ph_sol ph0) <> Dp /\ s_law (ph_sol ph0) <> DpRate)
          by (intros p Hp; apply HL; [left; reflexivity|exact Hp]).
        rewrite <- E. clear - F H2 HL0. induction F as [|a b l l' [_ HQ] F IHF]; [destruct H2|].
        destruct H2 as [<-|H2]; [|apply IHF; auto; intros; apply HL0; right; auto].
        destruct (HL0 a ltac:(left; reflexivity)) as (X & Y). split; [apply HQ; exact X|exact Y]. }
    replace (nth k (sget f G1) 0) with 0.
    2:{ unfold frame_all in FP. rewrite FP. replace (sget f _) with (sget f (wipe (sP s) (sG s))) by (destruct f; reflexivity).
        rewrite wipe_sget. symmetry. apply nth_repeat_same. }
    rewrite Rplus_0_l. symmetry. unfold total.
    apply (pair_sum_congr _ _ _ _ _ _ (fun _ p p' => px p = px p')
      (fun S p' p => pm p' = pm p /\ shown (p_dt (sP s)) (s_law S) f p' = shown (p_dt (sP s)) (s_law S) f p)).
    - clear - A3. induction A3 as [|? ? ? ? [E F] A IH]; constructor; auto. split; [exact E|].
      clear - F. induction F as [|? ? ? ? [Q _] F]; constructor; auto.
    - pose (K := fun (S : solid R) (p' p : particle R) => pm p' = pm p /\ shown (p_dt (sP s)) (s_law S) f p' = shown (p_dt (sP s)) (s_law S) f p).
      apply (pair_trans K K K _ L4s); unfold K.
      + intros S a b c [-> ->] [-> ->]. auto.
      + clear - RM. induction RM as [|ph ph' l l' (E & _ & _ & F & _) A IH]; constructor; auto. split; [exact E|].
        rewrite E. destruct (is_rigid (s_law (ph_sol ph))); (induction F as [|? ? ? ? Q F]; constructor; auto).
        * destruct Q as (w & _ & ->). split; [reflexivity|]. destruct f, (s_law (ph_sol ph)); reflexivity.
        * destruct Q as (-> & _). split; [reflexivity|]. destruct f, (s_law (ph_sol ph)); reflexivity.
      + clear - RG. induction RG as [|ph ph' l l' (E & _ & _ & F & _) A IH]; constructor; auto. split; [exact E|].
        rewrite E. induction F as [|? ? ? ? Q F]; constructor; auto. destruct Q as [-> _]. split; [reflexivity|].
        destruct f, (s_law (ph_sol ph)); reflexivity.
    - clear - A3 R4 RM RG. revert R4 RM A3. generalize (sL s) (sL s'). intros l l' R4 RM A3.
      transitivity (map ph_sol L4s); [|clear - RM; induction RM as [|? ? ? ? (E & _) ? IH]; cbn; [reflexivity|f_equal; auto]].
      transitivity (map ph_sol L4); [|clear - RG; induction RG as [|? ? ? ? (E & _) ? IH]; cbn; [reflexivity|f_equal; auto]].
      transitivity (map ph_sol L3); [clear - A3; induction A3 as [|? ? ? ? (E & _) ? IH]; cbn; [reflexivity|f_equal; auto]|].
      clear - R4; induction R4 as [|? ? ? ? (E & _) ? IH]; cbn; [reflexivity|f_equal; auto].
    - intros S p1 p1' p2 p2' -> [-> ->]. reflexivity. }
  assert (SL3 : length (f_eta G3) = nodes (pG P)).
  { exact (stress_strain_slens P L3 G1 L4 G3 HP ES SL Feta). }
  destruct (segregate_sget fill P L4 _ L4s (sG s') HP (eq_trans (f_equal (@length R) (E6 Feta ltac:(discriminate))) SL3) EG) as [B1 B2].
  split.
  - intros f k H1 H2. rewrite (B1 f H2), (E6 f H1). apply T3.
  - pose proof (E6 Feta ltac:(discriminate)) as E7. cbn [sget] in E7. rewrite E7 in B2. change (pG P) with (pG (sP s)) in B2.
    assert (T4 : forall k, nth k (f_eta G3) 0 = total Feta k) by (intros k; exact (T3 Feta k)).
    pose proof HP as HP0. destruct HP as (N1 & N2 & _). intros j Hj. split.
    + intros i Hi. rewrite B2 by (unfold nodes; nia). unfold tie. destruct (node_at (pG (sP s)) HP0 j i ltac:(lia)) as [-> _].
      destruct (Nat.eqb_spec i 0); [lia|]. destruct (Nat.eqb_spec i (nx (pG (sP s)) - 1)); [lia|]. rewrite T4. lra.
    + intros i Hi. rewrite B2 by (unfold nodes; nia). unfold tie. destruct (node_at (pG (sP s)) HP0 j i ltac:(lia)) as [-> _].
      destruct Hi as [->| ->].
      * cbn [Nat.eqb]. rewrite !T4, Nat.add_0_r. reflexivity.
      * destruct (Nat.eqb_spec (nx (pG (sP s)) - 1) 0); [lia|]. rewrite Nat.eqb_refl, !T4.
        replace (j * nx (pG (sP s)) + (nx (pG (sP s)) - 1) - (nx (pG (sP s)) - 1))%nat with (j * nx (pG (sP s)))%nat by lia. apply Rplus_comm.
Qed.

Definition seam_solid : solid R := mix_solid KenSimple.
Definition seam_state (G : grid R) : state R :=
  mkState (ex_params ex_bounds <| p_seg := true |> <| p_c := Some 1 |> <| p_l := Some 1 |>) G
    [mkPhase seam_solid 1 v0 [ex_particle (1/2) (1/2) (mkV3 1 0 0) ex_stress <| ppressure := -100 |> <| pgammadot := 1 |>]].

Example x_C112_fields : forall uf fill, exists (s s' : state R), proper (pG (sP s)) /\ grid_ok (pG (sP s)) (sG s) /\ tight (sP s) /\
  p_seg (sP s) = true /\
  all_live (sL s) (fun ph p => in_dom (pG (sP s)) (px p) /\ s_law (ph_sol ph) <> Dp /\ s_law (ph_sol ph) <> DpRate) /\
  time_march uf fill s = Ok s' /\ exists ph p, In ph (sL s) /\ live ph = [p] /\ s_law (ph_sol ph) = KenSimple /\ ppressure p = -100.
Proof.
  intros uf fill. destruct (grid_init_ok ex_gridp ex_bounds ex_proper) as (G & EG & OK).
  set (s := seam_state G).
  assert (D : all_live (sL s) (fun _ p => in_dom (pG (sP s)) (px p))).
  { intros ph p [<-|[]] [<-|[]]; repeat split; cbn; unR; lra. }
  assert (HR : ready_sift s).
  { constructor; try discriminate; try exact ex_proper; try exact OK.
    - intros ph [<-|[]]. reflexivity.
    - intros ph p A C. split; [exact (D ph p A C)|]. destruct A as [<-|[]], C as [<-|[]]. reflexivity.
    - exists seam_solid. split; [reflexivity|]. intros ph p [<-|[]] [<-|[]]. right. unfold grainy, has. cbn.
      split; [intros i Hi; lia|]. split; [discriminate|]. split; [discriminate|]. eexists. reflexivity.
    - intros ph [<-|[]]. discriminate.
    - left. reflexivity.
    - intros _. split; [discriminate|]. split; [discriminate|]. split; [discriminate|]. split; [discriminate|].
      split; [intros S0 X; injection X as <-; discriminate|]. split; [cbn; lia|]. intros ph p [<-|[]] [<-|[]]; reflexivity.
    - split; reflexivity. }
  destruct (p_C58_step_sift uf fill s HR) as [s' E].
  exists s, s'. split; [exact ex_proper|]. split; [exact OK|]. split; [repeat split; reflexivity|]. split; [reflexivity|].
  split; [intros ph p A C; split; [exact (D ph p A C)|]; destruct A as [<-|[]]; split; discriminate|].
  split; [exact E|]. do 2 eexists. split; [left; reflexivity|]. repeat split; reflexivity.
Qed.
