(** * A whole step seen from the particles and from the nodes. *)
From Coq Require Import ZArith List Bool Arith Lia Reals Lra.
From Verif Require Import State NumR LibR LibList Spec SpecStep ModelGrid ModelConstit ModelParticle ModelMPList
  ModelIntegr ModelMain ProofsGrid ProofsMap ProofsP2G ProofsWalls ProofsLaws ProofsInOut ProofsHist Concrete
  ThmMapping ThmWalls ThmLaws ThmInOut ProofsStep.
Import ListNotations.
Local Open Scope R_scope.

(** No inlet, outlet, periodicity, conveyor or segregation. *)
Definition shut {T} (P : params T) : Prop :=
  p_seg P = false /\ cyclic_lr (pB P) = false /\ conveyor (pB P) = false /\
  outlet_left (pB P) = false /\ outlet_bottom (pB P) = false /\ inlet_right (pB P) = false /\ inlet_top (pB P) = false.

(** How a step with parameters [P] that ends with grid [G] changes a point. *)
Definition stepped (P : params R) (G : grid R) (ph : phase R) (p p' : particle R) : Prop :=
  (s_law (ph_sol ph) <> ElasticTime -> pm p' = pm p) /\
  (forall a, comp a (px p') = comp a (px p) + p_dt P * fsum (nodes (pG P)) (fun k => hat (pG P) (px p) k * node_v P G a k)) /\
  match pv p with
  | Own v => exists v', pv p' = Own v' /\ forall a, comp a v' = comp a v +
               p_dt P * fsum (nodes (pG P)) (fun k => hat (pG P) (px p) k * node_acc P G a k)
  | Shared => pv p' = Shared
  end.

Definition Prel (Q : phase R -> particle R -> particle R -> Prop) (L L' : list (phase R)) : Prop :=
  Forall2 (fun ph ph' => ph_sol ph' = ph_sol ph /\ ph_n ph' = ph_n ph /\ length (ph_pts ph') = length (ph_pts ph) /\
                         Forall2 (Q ph) (live ph) (live ph')) L L'.

Lemma Rsum_Forall2 {A B} (Q : A -> B -> Prop) l l' (c : A -> R) (c' : B -> R) : Forall2 Q l l' ->
  (forall a b, In a l -> In b l' -> Q a b -> c a = c' b) -> Rsum (map c l) = Rsum (map c' l').
Proof.
  induction 1; intros HE; [reflexivity|]. unfold Rsum in *. cbn. rewrite (HE x y); [|left; auto|left; auto|auto].
  rewrite IHForall2; [reflexivity|]. intros; apply HE; [right; auto|right; auto|auto].
Qed.
Lemma Prel_psum Q L L' c c' : Prel Q L L' ->
  (forall ph ph' p p', In ph L -> In p (live ph) -> In ph' L' -> In p' (live ph') -> ph_sol ph' = ph_sol ph -> Q ph p p' -> c ph p = c' ph' p') ->
  psum L c = psum L' c'.
Proof.
  intros H HE. unfold psum. eapply Rsum_Forall2; [exact H|]. cbv beta. intros ph ph' A B (E & _ & _ & F).
  eapply Rsum_Forall2; [exact F|]. intros p p' C D K. eapply HE; eauto.
Qed.
Lemma Prel_all_live Q L L' (A A' : phase R -> particle R -> Prop) : Prel Q L L' ->
  (forall ph ph' p p', In ph L -> In p (live ph) -> ph_sol ph' = ph_sol ph -> Q ph p p' -> A ph p -> A' ph' p') ->
  all_live L A -> all_live L' A'.
Proof.
  intros H HE HA. induction H as [|ph ph' L L' (E & _ & _ & F) H IH]; [intros ? ? []|].
  intros ph0 p0 [<-|Hin] Hp.
  - assert (X : forall p, In p (live ph) -> A ph p) by (intros; apply HA; [left; auto|auto]).
    assert (HE' : forall p p', In p (live ph) -> Q ph p p' -> A ph p -> A' ph' p') by (intros; eapply HE; eauto; left; auto).
    clear - F X Hp HE'. induction F as [|p p' l l' K F IH]; [destruct Hp|]. destruct Hp as [<-|Hp].
    + apply (HE' p); [left; reflexivity|exact K|apply X; left; reflexivity].
    + apply IH; auto; intros; [apply X; right; auto|eapply HE'; eauto; right; auto].
  - apply IH; [intros; eapply HE; eauto; right; auto|intros q r X Y; apply HA; [right; exact X|exact Y]|exact Hin|exact Hp].
Qed.
Lemma Forall2_conj_l {A B} (R1 : A -> B -> Prop) (Q : A -> Prop) l l' : Forall2 R1 l l' -> (forall a, In a l -> Q a) ->
  Forall2 (fun a b => Q a /\ R1 a b) l l'.
Proof. induction 1; intros HQ; constructor; [split; [apply HQ; left|]; auto|]. apply IHForall2. intros; apply HQ; right; auto. Qed.

Lemma Forall2_imp {A B} (R1 R2 : A -> B -> Prop) l l' : (forall a b, R1 a b -> R2 a b) -> Forall2 R1 l l' -> Forall2 R2 l l'.
Proof. intros HI. induction 1; constructor; auto. Qed.

Section Step.
  Context (uf : params R -> loads R) (fill : list bool -> list R -> list R) (s s' : state R).
  Context (HP : proper (pG (sP s))) (HG : grid_ok (pG (sP s)) (sG s)).
  Context (HD : all_live (sL s) (fun _ p => in_dom (pG (sP s)) (px p))).
  Context (HS : shut (sP s)) (HR : forall ph, In ph (sL s) -> s_law (ph_sol ph) <> Rigid).
  Context (E : time_march uf fill s = Ok s').

  Let P := sP s <| p_loads := uf (sP s) |>.

  Lemma march_points : Prel (stepped P (sG s')) (sL s) (sL s').
  Proof.
    pose proof HS as (Hs & Hc & Hv & O1 & O2 & I1 & I2).
    destruct (march_stages uf fill s s' HP HG HD Hs Hc E) as
      (S0 & L1 & L3 & L4 & L5 & G1 & G3 & G4 & G5 & G6 & HS0 & E1 & R1 & R3 & E2 & F1 & E3 & R4 & F3 & Lo & E4 & LF & E5 & Z4 & Z5 & E6 & EP & EG & PM & EI).
    fold P in EP, PM, EI.
    assert (IO : inout P L5 = Ok L5).
    { unfold inout. change (pB P) with (pB (sP s)). rewrite O1, O2, I1, I2, Hc. reflexivity. }
    rewrite IO in EI. injection EI as EI. rewrite <- EI.
    assert (RC : Lrel (fun ph p p' => px p' = px p /\ pv p' = pv p /\ (s_law (ph_sol ph) <> ElasticTime -> pm p' = pm p)) (sL s) L4).
    { eapply Lrel_trans; [exact R1| |].
      { eapply (Lrel_trans _ _ (fun ph p p' => px p' = px p /\ pv p' = pv p /\ (s_law (ph_sol ph) <> ElasticTime -> pm p' = pm p)));
          [exact R3|exact R4|].
        cbv beta. intros ph ph' p p1 p2 _ _ ES _ [_ ->] [X Y]. unfold strained, law_frame in X. rewrite ES in Y.
        split; [rewrite X; reflexivity|]. split; [rewrite X; reflexivity|]. intros Q. rewrite (Y Q). reflexivity. }
      cbv beta. intros ph ph' p p1 p2 _ _ ES _ [b ->] (X & Y & Z). rewrite ES in Z. cbn [px pv pm set] in *. auto. }
    assert (NV : forall a k, node_v P (sG s') a k = node_v P G6 a k) by (intros; rewrite EG; reflexivity).
    assert (NA : forall a k, node_acc P (sG s') a k = node_acc P G6 a k) by (intros; rewrite EG; reflexivity).
    assert (R5 : Forall2 (fun ph ph' => s_law (ph_sol ph) <> Rigid /\ (ph_sol ph' = ph_sol ph /\ ph_n ph' = ph_n ph /\ ph_sv ph' = ph_sv ph /\
               Forall2 (fun p p' => px p' = px p /\ pv p' = pv p /\ (s_law (ph_sol ph) <> ElasticTime -> pm p' = pm p)) (live ph) (live ph') /\
               length (ph_pts ph') = length (ph_pts ph))) (sL s) L4).
    { apply Forall2_conj_l; [exact RC|exact HR]. }
    eapply Forall2_imp; [|exact (Forall2_comp _ _ _ _ _ R5 PM)].
    cbv beta. intros ph ph2 (ph1 & (NR & A1 & A2 & A3 & A4 & A5) & (B1 & B2 & B3 & B4 & _)).
    split; [congruence|]. split; [congruence|]. split; [congruence|].
    rewrite A1 in B4. assert (IR : is_rigid (s_law (ph_sol ph)) = false) by (destruct (s_law (ph_sol ph)); try reflexivity; congruence).
    rewrite IR in B4.
    eapply Forall2_imp; [|exact (Forall2_comp _ _ _ _ _ A4 B4)].
    cbv beta. intros p p2 (p1 & (X1 & X2 & X3) & (Y1 & Y2 & Y3)). split; [|split].
    - intros Q. rewrite <- (X3 Q), Y1. reflexivity.
    - intros a. rewrite Y2, X1. f_equal. f_equal. apply fsum_ext. intros. rewrite NV. reflexivity.
    - rewrite X2 in Y3. destruct (pv p) as [v|]; [|exact Y3]. destruct Y3 as (v' & W1 & W2). exists v'. split; [exact W1|].
      intros a. rewrite W2, X1. f_equal. f_equal. apply fsum_ext. intros. rewrite NA. reflexivity.
  Qed.

  (** The nodes: mass, momentum and momentum rate at the end of the step. *)
  Lemma march_mass : forall k, nth k (gm (sG s')) 0 = psum (sL s) (fun _ p => pm p * hat (pG (sP s)) (px p) k).
  Proof.
    pose proof HS as (Hs & Hc & Hv & O1 & O2 & I1 & I2).
    destruct (march_stages uf fill s s' HP HG HD Hs Hc E) as
      (S0 & L1 & L3 & L4 & L5 & G1 & G3 & G4 & G5 & G6 & HS0 & E1 & R1 & R3 & E2 & F1 & E3 & R4 & F3 & Lo & E4 & LF & E5 & Z4 & Z5 & E6 & EP & EG & PM & EI).
    fold P in E2, E4, E5, E6, Z5, LF. intros k.
    destruct (force_loop_spec P L4 G3 G4 LF E4) as (F4 & _).
    pose proof (BCs_frame _ _ _ _ E5) as F5. destruct (um_shape P G5 G6 E6) as [F6 _].
    unfold vis_frame in F3. unfold frame_f in F4. unfold force_frame in F5.
    assert (EM : gm (sG s') = gm G1).
    { rewrite EG. unfold calculate_gammadot. cbn. rewrite F6. cbn. rewrite F5. cbn. rewrite F4. cbn. rewrite F3. reflexivity. }
    rewrite EM. destruct (p2g_all_mass P L3 (wipe (sP s) (sG s)) G1 (wipe_lens (sP s) (sG s)) E2) as (_ & _ & M).
    rewrite M, wipe_m, Rplus_0_l. unfold mass_at. symmetry.
    assert (RC : Lrel (fun _ p p' => px p' = px p /\ pm p' = pm p /\ located (pG (sP s)) p') (sL s) L3).
    { eapply Lrel_trans; [exact R1|exact R3|]. cbv beta. intros ph ph' p p1 p2 _ _ _ _ [b ->] [D ->].
      split; [reflexivity|]. split; [reflexivity|]. apply locate_located. exact D. }
    eapply Lrel_psum; [exact RC|]. cbv beta. intros ph p ph' p' _ _ _ _ _ (X & Y & Z).
    rewrite (wt_hat P p' k HP Z), X, Y. reflexivity.
  Qed.
End Step.
