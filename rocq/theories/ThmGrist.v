(** * Runs of grains do not fail: C113. *)
From Coq Require Import ZArith Reals List Bool Arith Lra Lia.
From RecordUpdate Require Import RecordUpdate.
From Verif Require Import State NumR Spec SpecLaws SpecStep SpecScheme SpecLocal LibList LibR ModelGrid ModelConstit ModelParticle ModelMPList
  ModelIntegr ModelMain ProofsGrid ProofsMap ProofsP2G ProofsWalls ProofsLaws ProofsInOut ProofsHist Concrete
  ThmMapping ThmWalls ThmLaws ThmInOut ThmHist ProofsStep ProofsPoints ThmStep ThmBalance ThmEnergy ThmFall ThmGeo ProofsScheme ThmScheme ProofsLocal ThmLocal ThmLoop ThmSift ThmGrade.
Import ListNotations.
Local Open Scope R_scope.

(** A step keeps what the laws read of the points. *)
Lemma able_kept uf fill (s s' : state R) S0 : proper (pG (sP s)) -> grid_ok (pG (sP s)) (sG s) ->
  all_live (sL s) (fun _ p => in_dom (pG (sP s)) (px p)) -> tight (sP s) -> own_velocities (sL s) ->
  time_march uf fill s = Ok s' ->
  all_live (sL s) (fun ph p => able (pG (sP s)) S0 (ph_sol ph) p) -> all_live (sL s') (fun ph p => able (pG (sP s)) S0 (ph_sol ph) p).
Proof.
  intros HP HG HD HS HO E HF. pose proof HS as (Hc & O1 & O2 & I1 & I2).
  destruct (march_seg uf fill s s' HP HG HD Hc E) as
    (S1 & L1 & L3 & L4 & L4s & L5 & G1 & G3 & G4 & G5 & G6 & HS1 & E1 & R1 & R3 & E2 & F1 & E3 & R4 & F3 & Lo & E4 & LF & E5 & Z4 & Z5 & E6 & EP & ESG & GD & SN & PM & EI).
  set (P := sP s <| p_loads := uf (sP s) |>) in *. set (Pg := pG (sP s)) in *.
  assert (IO : inout P L5 = Ok L5).
  { unfold inout. change (pB P) with (pB (sP s)). rewrite O1, O2, I1, I2, Hc. reflexivity. }
  rewrite IO in EI. injection EI as EI. rewrite <- EI.
  set (Q := fun (ph : phase R) (p : particle R) => able Pg S0 (ph_sol ph) p /\ exists v, pv p = Own v).
  assert (TR : forall (So So' : solid R) (p p' : particle R), So' = So -> length (pphi p') = length (pphi p) -> able Pg S0 So p -> able Pg S0 So' p').
  { intros So So' p p' -> EL. unfold able, grainy. rewrite EL. auto. }
  assert (D0 : all_live (sL s) Q) by (intros ph p A C; split; [exact (HF ph p A C)|exact (HO ph p A C)]).
  assert (D1 : all_live L1 Q).
  { apply (Lrel_all_live _ _ _ Q _ R1); [|exact D0]. cbv beta. intros ph p ph' p' _ _ ES _ _ [b ->] [X Y]. split; [eapply TR; [exact ES| |exact X]; reflexivity|exact Y]. }
  assert (D3 : all_live L3 Q).
  { apply (Lrel_all_live _ _ _ Q _ R3); [|exact D1]. cbv beta. intros ph p ph' p' _ _ ES _ _ [D ->] [X Y]. split; [eapply TR; [exact ES| |exact X]; reflexivity|exact Y]. }
  assert (D4 : all_live L4 Q).
  { apply (Lrel_all_live _ _ _ Q _ R4); [|exact D3]. cbv beta. intros ph p ph' p' _ _ ES _ _ (X & _) [Y Z]. unfold strained, law_frame in X.
    split; [eapply TR; [exact ES|rewrite X|exact Y]; reflexivity|rewrite X; exact Z]. }
  assert (D4s : all_live L4s Q).
  { apply (Lrel_all_live _ _ _ Q _ GD); [|exact D4]. cbv beta. intros ph p ph' p' _ _ ES _ _ (X & LX) (Y1 & Y2).
    split; [eapply TR; [exact ES|exact LX|exact Y1]|rewrite X; exact Y2]. }
  clear - PM D4s TR. induction PM as [|ph ph' L L' (A1 & A2 & A3 & A4 & _) PM IH]; [intros ? ? []|].
  intros ph1 p1 [<-|A] C; [|exact (IH (fun q p X => D4s q p (or_intror X)) ph1 p1 A C)].
  assert (K : forall p, In p (live ph) -> Q ph p) by (intros p Hp; apply (D4s ph p); [left; reflexivity|exact Hp]).
  clear - A1 A4 C K TR. revert C K. set (l := live ph) in *. set (l' := live ph') in *. clearbody l l'.
  intros C K. induction A4 as [|p p' l l' X A4 IH]; [destruct C|]. destruct C as [<-|C]; [|apply IH; [exact C|intros; apply K; right; assumption]].
  destruct (K p (or_introl eq_refl)) as [K1 _]. apply (TR (ph_sol ph) (ph_sol ph') p p' A1); [|exact K1]. destruct (is_rigid (s_law (ph_sol ph))).
  - destruct X as (w & _ & ->). reflexivity.
  - destruct X as (Y1 & _). rewrite Y1. reflexivity.
Qed.

(** What the laws of a state find, grains included. *)
Record furnished (s : state R) : Prop := {
  fu_count : counted (sL s);
  fu_laws : exists S0, sol0 (sL s) = Ok S0 /\ all_live (sL s) (fun ph p => able (pG (sP s)) S0 (ph_sol ph) p);
  fu_rigid : forall ph, In ph (sL s) -> s_law (ph_sol ph) = Rigid -> has (p_intruder_v (sP s));
  fu_belt : conveyor (pB (sP s)) = true -> has (p_v0 (sP s));
  fu_aniso : p_aniso (sP s) = false;
  fu_tf : p_tf (sP s) <> 0;
  fu_save : p_savetime (sP s) <> 0 }.

(** All eight materials of the scheme: the passes never fail as long as the points of the scheme stay in the domain, and
    give the points of the scheme. *)
Lemma p_C113_total : forall uf fill n (s : state R) tr S0, whole s -> furnished s -> sol0 (sL s) = Ok S0 ->
  (forall j, (j < n)%nat -> Forall (fun q => in_dom (pG (sP s)) (z_x q) /\ (p_check (sP s) = true -> vz (z_x q) = 0))
                                  (z_run uf (s_rho S0) j (sP s) (sG s) (cloud (sP s) (sL s)))) ->
  exists s' tr', after uf fill n s tr = Ok (s', tr') /\ cloud (sP s) (sL s') = z_run uf (s_rho S0) n (sP s) (sG s) (cloud (sP s) (sL s)).
Proof.
  intros uf fill n. induction n as [|n IH]; intros s tr S0 HW HV H0 HI.
  - exists s, tr. split; reflexivity.
  - pose proof (HI 0%nat (Nat.lt_0_succ n)) as HI0. cbn [z_run] in HI0.
    assert (HD := cloud_live (sP s) (sL s) (fun x => in_dom (pG (sP s)) x /\ (p_check (sP s) = true -> vz x = 0)) 0 HI0).
    assert (HD' : all_live (sL s) (fun _ p => in_dom (pG (sP s)) (px p))) by (intros ph p A C; apply (HD ph p A C)).
    pose proof HV as [V1 V2 V3 V4 V5 V6 V7]. pose proof (wh_sealed _ HW) as (Hs & Hc & O1 & O2 & I1 & I2).
    assert (HR : ready_sift s).
    { constructor; auto; try apply HW; [|rewrite O1; discriminate]. intros X. congruence. }
    destruct (p_C58_pass_sift uf fill s tr HR (wh_fixed _ HW) V6 V7) as [[s1 tr1] E].
    destruct (whole_pass uf fill s tr s1 tr1 S0 HW HD' H0 E) as (W1 & H1 & SO & K & EP & (M1 & M2 & M3 & M4) & EB).
    assert (P1 : furnished s1).
    { constructor; rewrite ?EP; unfold ticked; try assumption; auto.
      - destruct V2 as (S1 & A & B). exists S1. split; [eapply sol0_map; eauto|].
        destruct (pass_fixed uf fill s tr s1 tr1 (wh_fixed _ HW) E) as (s2 & E2 & EL & _). rewrite EL.
        apply (able_kept uf fill s s2 S1); try apply HW; auto; repeat split; assumption.
      - intros ph A. destruct (map_in_sol _ _ _ SO A) as (ph0 & A0 & <-). apply (V3 ph0 A0). }
    assert (CC : forall L, cloud (sP s1) L = cloud (sP s) L) by (intros L; apply cloud_pG; rewrite EP; reflexivity).
    destruct (IH s1 tr1 S0 W1 P1 H1) as (s' & tr' & A1 & A2).
    + intros j Hj. specialize (HI (Datatypes.S j) (proj1 (Nat.succ_lt_mono j n) Hj)). cbn [z_run] in HI.
      rewrite CC, EP, EB, (z_run_grid uf _ j _ (sG s) (sG s1)) by assumption. exact HI.
    + exists s', tr'. cbn [after z_run]. rewrite E. split; [exact A1|]. rewrite <- (CC (sL s')), A2, CC, EP, EB. apply z_run_grid; assumption.
Qed.

(** Grains of two sizes and an elastic body in a box with a belt, a load on the surface and a falling intruder. *)
Definition grist_state (G : grid R) : state R :=
  mkState mix_params G [mkPhase (ex_solid Pouliquen) 1 v0 [ex_particle (1/4) (1/2) (mkV3 1 0 0) ex_stress <| ppressure := -1 |>];
    mix_phase Elastic (3/4); mix_phase Rigid (5/4)].
Example x_C113_total : forall fill, exists (s : state R) S0, whole s /\ furnished s /\ sol0 (sL s) = Ok S0 /\
  (forall j, (j < 1)%nat -> Forall (fun q => in_dom (pG (sP s)) (z_x q) /\ (p_check (sP s) = true -> vz (z_x q) = 0))
                                  (z_run mix_loads (s_rho S0) j (sP s) (sG s) (cloud (sP s) (sL s)))) /\
  s_law S0 = Pouliquen /\ length (cloud (sP s) (sL s)) = 3%nat /\
  exists s' tr', after mix_loads fill 1 s [] = Ok (s', tr') /\ cloud (sP s) (sL s') = z_run mix_loads (s_rho S0) 1 (sP s) (sG s) (cloud (sP s) (sL s)).
Proof.
  intros fill. destruct (grid_init_ok ex_gridp mix_bounds ex_proper) as (G & EG & OK).
  set (s := grist_state G).
  assert (W : whole s).
  { constructor; try reflexivity; try (cbn; unR; lra).
    - exact ex_proper.
    - exact OK.
    - intros ph [<-|[<-|[<-|[]]]]; cbn [s_law ph_sol mix_phase mix_solid ex_solid]; try exact I; intros p [<-|[]]; cbn; try reflexivity.
    - intros ph p [<-|[<-|[<-|[]]]] [<-|[]]; eexists; reflexivity.
    - repeat split; reflexivity.
    - left. reflexivity. }
  assert (V : furnished s).
  { constructor; try reflexivity; try (cbn; unfold lit; unR; lra).
    - intros ph [<-|[<-|[<-|[]]]]; reflexivity.
    - exists (ex_solid Pouliquen). split; [reflexivity|].
      intros ph p [<-|[<-|[<-|[]]]] [<-|[]].
      + right. unfold grainy, has, class_attr. cbn. split; [intros i Hi; lia|]. split; [discriminate|]. split; [discriminate|]. split; [discriminate|].
        intros i Hi. repeat split; eexists; (split; [reflexivity|cbn; lia]).
      + left. unfold equipped, has. cbn. split; discriminate.
      + left. exact I.
    - intros ph _ _. discriminate.
    - intros _. discriminate. }
  assert (H : forall j, (j < 1)%nat -> Forall (fun q => in_dom (pG (sP s)) (z_x q) /\ (p_check (sP s) = true -> vz (z_x q) = 0))
                                  (z_run mix_loads (s_rho (ex_solid Pouliquen)) j (sP s) (sG s) (cloud (sP s) (sL s)))).
  { intros [|j] Hj; [|lia]. cbn [z_run]. repeat constructor; cbn; unR; lra. }
  exists s, (ex_solid Pouliquen). split; [exact W|]. split; [exact V|]. split; [reflexivity|]. split; [exact H|].
  split; [reflexivity|]. split; [reflexivity|].
  apply (p_C113_total mix_loads fill 1 s [] (ex_solid Pouliquen) W V eq_refl H).
Qed.

(** Each of the three laws with all it reads, and with fractions missing. *)
Definition grist_solid (l : law_name) : solid R := match l with Pouliquen => ex_solid Pouliquen | _ => mix_solid l end.
Example x_C113_law : forall l, In l [Pouliquen; LinearMu; KenSimple] -> exists P (So : solid R) p q G, s_law So = l /\
  reaches P p /\ reaches P q /\ slens (nodes (pG P)) G /\ grainy (pG P) So p /\ ~ grainy (pG P) So q /\
  (exists r, apply_law P So So 0 p G = Ok r) /\ ~ exists r, apply_law P So So 0 q G = Ok r.
Proof.
  intros l Hl. destruct (grid_init_ok ex_gridp ex_box ex_proper) as (G & EG & OK).
  set (P := ex_params (T := R) ex_box). set (p := locate ex_gridp (ex_particle (1/2) (1/2) v0 ex_stress)).
  set (q := p <| pphi := [1] |>). exists P, (grist_solid l), p, q, (wipe P G).
  assert (HL : s_law (grist_solid l) = l) by (destruct Hl as [<-|[<-|[<-|[]]]]; reflexivity).
  assert (LP : located ex_gridp p) by (apply locate_located; repeat split; cbn; unR; lra).
  assert (R1 : reaches P p) by (apply located_reaches; [exact ex_proper|exact LP]).
  assert (R2 : reaches P q) by exact R1.
  assert (SL : slens (nodes (pG P)) (wipe P G)) by (intros f; apply (wipe_slens P G f)).
  assert (G1 : grainy (pG P) (grist_solid l) p).
  { unfold grainy, has. destruct Hl as [<-|[<-|[<-|[]]]]; (split; [intros i Hi; exact (conj Hi Hi)|]); (split; [discriminate|]); (split; [discriminate|]); cbn.
    - split; [discriminate|]. intros i Hi. unfold class_attr. cbn. repeat split; eexists; (split; [reflexivity|exact Hi]).
    - split; [discriminate|]. split; [discriminate|]. eexists. reflexivity.
    - eexists. reflexivity. }
  assert (G2 : ~ grainy (pG P) (grist_solid l) q).
  { intros [X _]. destruct (X 1%nat); [cbn; lia|]. cbn in *. lia. }
  split; [exact HL|]. split; [exact R1|]. split; [exact R2|]. split; [exact SL|]. split; [exact G1|]. split; [exact G2|].
  rewrite <- HL in Hl. split.
  - exact (proj2 (p_C113_law P _ _ 0 p _ R1 SL Hl) G1).
  - intros X. exact (G2 (proj1 (p_C113_law P _ _ 0 q _ R2 SL Hl) X)).
Qed.
