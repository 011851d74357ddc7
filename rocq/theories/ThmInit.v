(** * Parameters and their defaults *)
From Coq Require Import ZArith List Bool Arith Lia Ascii String Reals Lra.
From Verif Require Import State NumR LibList ModelPlot ModelInit.
Import ListNotations.
Local Open Scope R_scope.
Local Open Scope string_scope.
Local Existing Instance Num_R.

(** ** Laws of [setdefaults] *)
Section Gen.
  Context {T : Type} `{Num T}.
  Lemma setattr_same (o : obj T) a v : setattr o a v a = Some v.
  Proof. unfold setattr. rewrite String.eqb_refl. reflexivity. Qed.
  Lemma setattr_other (o : obj T) a b v : a <> b -> setattr o a v b = o b.
  Proof. intros N. unfold setattr. apply String.eqb_neq in N. rewrite N. reflexivity. Qed.
  Lemma setdefault_ok a e (o o' : obj T) : setdefault a e o = Ok o' ->
    (exists v, o a = Some v /\ o' = o) \/ (o a = None /\ exists v, e o = Ok v /\ o' = setattr o a v).
  Proof.
    unfold setdefault, has. destruct (o a) as [v|]; intros E; [left; injection E as <-; eauto|right; split; [reflexivity|]].
    destruct (e o) as [v|]; [|discriminate]. cbn in E. injection E as <-. eauto.
  Qed.
  Lemma setdefaults_keep l : forall (o o' : obj T), setdefaults l o = Ok o' -> forall a v, o a = Some v -> o' a = Some v.
  Proof.
    induction l as [|[b e] l IH]; intros o o' E a v Ho; cbn in E; [injection E as <-; exact Ho|].
    destruct (setdefault b e o) as [o1|] eqn:E1; [|discriminate]. apply (IH _ _ E).
    destruct (setdefault_ok _ _ _ _ E1) as [(w & _ & ->)|(N & w & _ & ->)]; [exact Ho|].
    rewrite setattr_other; [exact Ho|]. intros ->. congruence.
  Qed.
  Lemma setdefaults_none l : forall (o o' : obj T), setdefaults l o = Ok o' -> forall a, ~ In a (map fst l) -> o' a = o a.
  Proof.
    induction l as [|[b e] l IH]; intros o o' E a Hn; cbn in E; [injection E as <-; reflexivity|].
    destruct (setdefault b e o) as [o1|] eqn:E1; [|discriminate]. cbn in Hn. rewrite (IH _ _ E a) by tauto.
    destruct (setdefault_ok _ _ _ _ E1) as [(w & _ & ->)|(N & w & _ & ->)]; [reflexivity|]. apply setattr_other. tauto.
  Qed.
  Lemma setdefaults_set l1 : forall a e l2 (o o' : obj T), setdefaults (l1 ++ (a, e) :: l2) o = Ok o' -> o a = None -> ~ In a (map fst l1) ->
    exists o1 v, setdefaults l1 o = Ok o1 /\ e o1 = Ok v /\ o' a = Some v /\ forall b w, o1 b = Some w -> o' b = Some w.
  Proof.
    induction l1 as [|[b d] l1 IH]; intros a e l2 o o' E Ho Hn; cbn [app setdefaults] in E.
    - destruct (setdefault a e o) as [o1|] eqn:E1; [|discriminate].
      destruct (setdefault_ok _ _ _ _ E1) as [(w & W & _)|(N & w & We & ->)]; [congruence|].
      exists o, w. split; [reflexivity|]. split; [exact We|]. split; [apply (setdefaults_keep _ _ _ E), setattr_same|].
      intros b u Hb. apply (setdefaults_keep _ _ _ E). rewrite setattr_other; [exact Hb|]. intros ->. congruence.
    - destruct (setdefault b d o) as [o1|] eqn:E1; [|discriminate]. cbn [map fst In] in Hn.
      destruct (IH a e l2 o1 o' E) as (o2 & v & A & B & C); [|tauto|].
      + destruct (setdefault_ok _ _ _ _ E1) as [(w & _ & ->)|(N & w & _ & ->)]; [exact Ho|]. rewrite setattr_other; [exact Ho|tauto].
      + exists o2, v. split; [|split; [exact B|exact C]]. cbn [setdefaults]. rewrite E1. exact A.
  Qed.
  (** A constant default. *)
  Lemma setdefaults_const l (o o' : obj T) a v : setdefaults l o = Ok o' -> NoDup (map fst l) -> In (a, const v) l -> o a = None -> o' a = Some v.
  Proof.
    intros E ND HI Ho. apply in_split in HI. destruct HI as (l1 & l2 & ->).
    rewrite map_app in ND. cbn [map fst] in ND. apply NoDup_remove_2 in ND. rewrite in_app_iff in ND.
    destruct (setdefaults_set l1 a (const v) l2 o o' E Ho) as (o1 & w & _ & W & A & _); [tauto|]. injection W as <-. exact A.
  Qed.
End Gen.
Lemma names_nodup : NoDup (map fst (defaults_P (T := R))) /\ NoDup (map fst (defaults_B (T := R))) /\ NoDup (map fst (defaults_G (T := R))) /\ NoDup (map fst (defaults_O (T := R))).
Proof. repeat split; cbn; repeat constructor; cbn; intuition discriminate. Qed.

(** ** C47 *)
(** The defaults, written down independently of the code. *)
Definition table_P : list (string * val R) :=
  [ ("t", VNum 0); ("tstep", VInt 0); ("grid_save", VInt 0); ("mp_save", VInt 0); ("M_tol", VNum (1 / 10 ^ 10)); ("max_g", VNum 0); ("max_q", VNum 0);
    ("has_yielded", VBool false); ("damping", VBool false); ("theta", VNum 0); ("pressure", VNone); ("segregate_mp", VBool false);
    ("segregate_grid", VBool false); ("initial_flow", VBool false); ("smooth_gamma_dot", VBool false); ("smooth_grad2", VBool false);
    ("normalise_phi", VBool false); ("time_stepping", VStr "static"); ("CFL", VNum (1 / 10)) ].
Definition switches_B : list string :=
  [ "wall"; "two_walls"; "roughness"; "wall_mu"; "no_slip_bottom"; "cyclic_lr"; "has_top"; "has_bottom"; "has_right"; "has_left"; "box";
    "outlet_left"; "outlet_bottom"; "inlet_right"; "inlet_top"; "force_boundaries"; "vertical_force"; "horizontal_force"; "conveyor"; "silo_left"; "silo_bottom" ].
Definition switches_O : list string :=
  [ "check_positions"; "measure_stiffness"; "measure_energy"; "plot_gsd_mp"; "plot_gsd_grid"; "plot_gsd_debug"; "plot_material_points"; "plot_continuum";
    "save_s_bar"; "save_density"; "save_u"; "save_phi_MP" ].
Definition hooks_O : list string := [ "initial_graphs"; "before_every_timestep"; "after_every_nth_timestep"; "after_every_timestep"; "final_graphs" ].
Lemma mapM_rel {A B} (f : A -> res B) (R1 : A -> B -> Prop) l l' : (forall a b, f a = Ok b -> R1 a b) -> mapM f l = Ok l' -> Forall2 R1 l l'.
Proof. intros Hf E. apply mapM_Forall2 in E. induction E as [|a b l l' Hab _ IH]; constructor; auto. Qed.
Definition phases_of (i : input R) : list (obj R) := match iS i with inl o => [o] | inr l => l end.
Lemma get_ok mode (i : input R) f : get_parameters mode i = Ok f ->
  exists P1 dir O1, setdefaults defaults_P (setattr (iP i) "mode" (VStr mode)) = Ok P1 /\ setdefaults defaults_B (iB i) = Ok (fB f) /\
    setdefaults defaults_G (iG i) = Ok (fG f) /\ mapM (setdefaults (defaults_S (fG f))) (phases_of i) = Ok (fS f) /\
    fP f = setattr (setattr P1 "phases" (VInt (Z.of_nat (List.length (phases_of i))))) "save_dir" (VStr dir) /\
    setdefaults defaults_O (iO i) = Ok O1 /\
    (fO f = O1 /\ (forall e, O1 "measure_energy" = Some e -> truthy e = false) \/
     exists n, fO f = setattr O1 "energy" (VZeros (n + 1) 4) /\ fP f "nt" = Some (VInt n)) /\
    (forall s, P1 "supername" = Some (VStr s) -> dir = s ++ "/") /\
    (P1 "supername" = None -> exists o S' l, fS f = o :: S' /\ o "law" = Some (VStr l) /\ dir = "im/" ++ mode ++ "/" ++ l ++ "/").
Proof.
  unfold get_parameters. cbv zeta. fold (phases_of i).
  destruct (setdefaults defaults_P _) as [P1|] eqn:E1; [|discriminate]. cbn [bind].
  destruct (setdefaults defaults_B _) as [B|] eqn:E2; [|discriminate]. cbn [bind].
  destruct (setdefaults defaults_G _) as [G|] eqn:E3; [|discriminate]. cbn [bind].
  destruct (mapM _ _) as [S'|] eqn:E4; [|discriminate]. cbn [bind].
  match goal with |- (' dir <- ?x ;; _) = _ -> _ => destruct x as [dir|] eqn:E5; [|discriminate] end. cbn [bind].
  destruct (setdefaults defaults_O _) as [O1|] eqn:E6; [|discriminate]. cbn [bind]. unfold getattr at 1. destruct (O1 "measure_energy") as [e|] eqn:E7; [|discriminate]. cbn [attr bind].
  intros E. exists P1, dir, O1.
  assert (SN : (forall s, P1 "supername" = Some (VStr s) -> dir = s ++ "/") /\
    (P1 "supername" = None -> exists o T l, S' = o :: T /\ o "law" = Some (VStr l) /\ dir = "im/" ++ mode ++ "/" ++ l ++ "/")).
  { rewrite setattr_other in E5 by discriminate. destruct (P1 "supername") as [v|].
    - split; [intros s E0; injection E0 as ->; cbn in E5; injection E5 as <-; reflexivity|discriminate].
    - split; [discriminate|]. intros _. destruct S' as [|o S1]; [discriminate|]. unfold getattr in E5. destruct (o "law") as [v|] eqn:EL; [|discriminate]. cbn in E5.
      destruct v; try discriminate. cbn in E5. injection E5 as <-. exists o, S1, s. auto. }
  destruct SN as [SN1 SN2].
  destruct (truthy e) eqn:TE.
  - destruct (getattr _ "nt") as [n|] eqn:EN; [|discriminate]. cbn [bind] in E. destruct n as [| n | | | | | |]; try discriminate.
    destruct (n + 1 <? 0)%Z; [discriminate|]. cbn [bind] in E. injection E as <-. cbn [fP fB fG fO fS].
    do 6 (split; [first [reflexivity|assumption]|]).
    split; [right|split; assumption]. exists n. split; [reflexivity|]. unfold getattr, attr in EN.
    destruct (setattr (setattr P1 "phases" _) "save_dir" _ "nt") as [v|]; [|discriminate]. congruence.
  - cbn [bind] in E. injection E as <-. cbn [fP fB fG fO fS].
    do 6 (split; [first [reflexivity|assumption]|]).
    split; [left|split; assumption]. split; [reflexivity|]. intros e' E'. congruence.
Qed.

(** What the input file sets is kept, except the name of the input file, the
    number of phases, the output directory and the energy table. *)
Lemma p_C47_kept : forall mode (i : input R) f, get_parameters mode i = Ok f ->
  (forall a v, iP i a = Some v -> a <> "mode" -> a <> "phases" -> a <> "save_dir" -> fP f a = Some v) /\
  (forall a v, iB i a = Some v -> fB f a = Some v) /\ (forall a v, iG i a = Some v -> fG f a = Some v) /\
  (forall a v, iO i a = Some v -> a <> "energy" -> fO f a = Some v) /\
  Forall2 (fun o o' => forall a v, o a = Some v -> o' a = Some v) (phases_of i) (fS f).
Proof.
  intros mode i f E. destruct (get_ok _ _ _ E) as (P1 & dir & O1 & E1 & E2 & E3 & E4 & -> & E6 & E7 & _).
  split; [|split; [|split; [|split]]].
  - intros a v Ha N1 N2 N3. rewrite !setattr_other by congruence. apply (setdefaults_keep _ _ _ E1). rewrite setattr_other by congruence. exact Ha.
  - intros a v. apply (setdefaults_keep _ _ _ E2).
  - intros a v. apply (setdefaults_keep _ _ _ E3).
  - intros a v Ha N. pose proof (setdefaults_keep _ _ _ E6 _ _ Ha) as H1. destruct E7 as [[-> _]|(n & -> & _)]; [exact H1|]. rewrite setattr_other by congruence. exact H1.
  - eapply mapM_rel; [|exact E4]. cbv beta. intros o o' Eo a v. apply (setdefaults_keep _ _ _ Eo).
Qed.
(** What it leaves out gets the documented default. *)
Lemma p_C47_defaults : forall mode (i : input R) f, get_parameters mode i = Ok f ->
  (forall a v, In (a, v) table_P -> iP i a = None -> fP f a = Some v) /\
  (iP i "g" = None -> fP f "g" = fP f "max_g") /\ (iP i "q_v" = None -> fP f "q_v" = fP f "max_q") /\ (iP i "q_h" = None -> fP f "q_h" = fP f "max_q") /\
  (forall a, In a switches_B -> iB i a = None -> fB f a = Some (VBool false)) /\
  (forall a, In a switches_O -> iO i a = None -> fO f a = Some (VBool false)) /\
  (forall a, In a hooks_O -> iO i a = None -> fO f a = Some (VFun 0)) /\
  (iG i "thickness" = None -> fG f "thickness" = Some (VNum 1)) /\ (iG i "ns" = None -> fG f "ns" = Some (VInt 1)) /\
  (iG i "s" = None -> fG f "s" = Some (VList [1 / 1000])) /\
  Forall2 (fun o o' => (o "heterogeneous" = None -> o' "heterogeneous" = Some (VBool false)) /\
     (o "phi" = None -> exists n, fG f "ns" = Some (VInt (Z.of_nat n)) /\ o' "phi" = Some (VList (repeat (1 / INR n) n)))) (phases_of i) (fS f).
Proof.
  intros mode i f E. destruct (get_ok _ _ _ E) as (P1 & dir & O1 & E1 & E2 & E3 & E4 & EP & E6 & E7 & _).
  destruct names_nodup as (ND1 & ND2 & ND3 & ND4).
  assert (OE : forall a, a <> "energy" -> fO f a = O1 a). { intros a N. destruct E7 as [[-> _]|(n & -> & _)]; [reflexivity|]. apply setattr_other. congruence. }
  assert (PE : forall a, a <> "phases" -> a <> "save_dir" -> fP f a = P1 a). { intros a N1 N2. rewrite EP, !setattr_other by congruence. reflexivity. }
  assert (GG : forall a b l1 l2, defaults_P (T := R) = (l1 ++ (a, fun o => getattr o b) :: l2)%list -> ~ In a (map fst l1) -> iP i a = None -> a <> "mode" -> P1 a = P1 b).
  { intros a b l1 l2 EQ NI HN NM. rewrite EQ in E1. destruct (setdefaults_set l1 a _ l2 _ _ E1) as (o1 & w & A & B & C & D); [rewrite setattr_other by congruence; exact HN|exact NI|].
    unfold getattr, attr in B. destruct (o1 b) as [u|] eqn:Eb; [|discriminate]. injection B as ->. rewrite C. symmetry. apply D. exact Eb. }
  split; [|split; [|split; [|split; [|split; [|split; [|split; [|split; [|split; [|split]]]]]]]]].
  - intros a v HI HN. assert (X : In (a, const v) (defaults_P (T := R)) /\ a <> "mode" /\ a <> "phases" /\ a <> "save_dir").
    { assert (L1 : lit (T := R) 1 (10 ^ 10) = 1 / 10 ^ 10) by (unfold lit; cbn; f_equal; lra). assert (L2 : lit (T := R) 1 10 = 1 / 10) by reflexivity.
      unfold table_P in HI. unfold defaults_P. rewrite L1, L2. cbn [In] in HI |- *. clear - HI.
      repeat (destruct HI as [HI|HI]; [injection HI as <- <-; split; [tauto|repeat split; discriminate]|]). contradiction. }
    destruct X as (X & N1 & N2 & N3). rewrite PE by assumption. eapply setdefaults_const; [exact E1|exact ND1|exact X|]. rewrite setattr_other by congruence. exact HN.
  - intros HN. rewrite !PE by discriminate. apply (GG "g" "max_g" (firstn 8 defaults_P) (skipn 9 defaults_P)); [reflexivity| |exact HN|discriminate]. cbn. intuition discriminate.
  - intros HN. rewrite !PE by discriminate. apply (GG "q_v" "max_q" (firstn 9 defaults_P) (skipn 10 defaults_P)); [reflexivity| |exact HN|discriminate]. cbn. intuition discriminate.
  - intros HN. rewrite !PE by discriminate. apply (GG "q_h" "max_q" (firstn 10 defaults_P) (skipn 11 defaults_P)); [reflexivity| |exact HN|discriminate]. cbn. intuition discriminate.
  - intros a HI HN. eapply setdefaults_const; [exact E2|exact ND2| |exact HN]. unfold defaults_B. apply in_map_iff. exists a. split; [reflexivity|exact HI].
  - intros a HI HN. rewrite OE. 2:{ intros ->. cbn in HI. intuition discriminate. }
    eapply setdefaults_const; [exact E6|exact ND4| |exact HN]. unfold defaults_O. apply in_app_iff. left. apply in_map_iff. exists a. split; [reflexivity|exact HI].
  - intros a HI HN. rewrite OE. 2:{ intros ->. cbn in HI. intuition discriminate. }
    eapply setdefaults_const; [exact E6|exact ND4| |exact HN]. unfold defaults_O. apply in_app_iff. right. apply in_map_iff. exists a. split; [reflexivity|exact HI].
  - intros HN. eapply setdefaults_const; [exact E3|exact ND3| |exact HN]. left. reflexivity.
  - intros HN. eapply setdefaults_const; [exact E3|exact ND3| |exact HN]. right. left. reflexivity.
  - intros HN. eapply setdefaults_const; [exact E3|exact ND3| |exact HN]. right. right. left. reflexivity.
  - eapply mapM_rel; [|exact E4]. cbv beta. intros o o' Eo. split.
    + intros HN. eapply setdefaults_const; [exact Eo| | |exact HN]; [cbn; repeat constructor; cbn; intuition discriminate|]. right. left. reflexivity.
    + intros HN. destruct (setdefaults_set [] "phi" _ _ _ _ Eo HN) as (o1 & w & A & B & C & _); [tauto|]. unfold default_phi, getattr, attr in B.
      destruct (fG f "ns") as [v|]; [|discriminate]. cbn [bind] in B. destruct v as [|z| | | | | |]; try discriminate. destruct (Z.ltb_spec z 0); [discriminate|].
      injection B as <-. exists (Z.to_nat z). rewrite Z2Nat.id by lia. split; [reflexivity|]. rewrite C. cbn. rewrite INR_IZR_INZ, Z2Nat.id by lia. reflexivity.
Qed.
(** The smallest and largest grain size, where the input leaves them out, are
    sizes of the list, and every size of the list is between them. *)
Lemma p_C47_sizes : forall mode (i : input R) f l, get_parameters mode i = Ok f -> fG f "s" = Some (VList l) ->
  (iG i "s_m" = None -> exists m, fG f "s_m" = Some (VNum m) /\ In m l /\ forall s, In s l -> m <= s) /\
  (iG i "s_M" = None -> exists m, fG f "s_M" = Some (VNum m) /\ In m l /\ forall s, In s l -> s <= m).
Proof.
  intros mode i f l E Hl. destruct (get_ok _ _ _ E) as (P1 & dir & O1 & _ & _ & E3 & _).
  assert (MIN : forall l (a : R), (let m := fold_left nmin l a in In m (a :: l) /\ forall s, In s (a :: l) -> m <= s)).
  { clear. induction l as [|b l IH]; intros a; cbv zeta in *; [split; [left; reflexivity|]; intros s [->|[]]; cbn; lra|].
    destruct (IH (nmin a b)) as [A B]. change (fold_left nmin (b :: l) a) with (fold_left nmin l (nmin a b)). split.
    - destruct A as [A|A]; [|right; right; exact A]. rewrite <- A. cbn. unfold Rmin. destruct (Rle_dec a b); auto.
    - assert (M := B _ (or_introl eq_refl)). pose proof (Rmin_l a b). pose proof (Rmin_r a b). change (nmin a b) with (Rmin a b) in *.
      intros s [<-|[<-|I]]; [lra|lra|]. apply B. right. exact I. }
  assert (MAX : forall l (a : R), (let m := fold_left nmax l a in In m (a :: l) /\ forall s, In s (a :: l) -> s <= m)).
  { clear. induction l as [|b l IH]; intros a; cbv zeta in *; [split; [left; reflexivity|]; intros s [->|[]]; cbn; lra|].
    destruct (IH (nmax a b)) as [A B]. change (fold_left nmax (b :: l) a) with (fold_left nmax l (nmax a b)). split.
    - destruct A as [A|A]; [|right; right; exact A]. rewrite <- A. cbn. unfold Rmax. destruct (Rle_dec a b); auto.
    - assert (M := B _ (or_introl eq_refl)). pose proof (Rmax_l a b). pose proof (Rmax_r a b). change (nmax a b) with (Rmax a b) in *.
      intros s [<-|[<-|I]]; [lra|lra|]. apply B. right. exact I. }
  split; intros HN.
  - destruct (setdefaults_set (firstn 3 defaults_G) "s_m" (fun o => s <- getattr o "s" ;; min_of s) (skipn 4 defaults_G) _ _ E3 HN) as (o1 & v & _ & B & C & D); [cbn; intuition discriminate|].
    unfold getattr, attr in B. destruct (o1 "s") as [w|] eqn:Es; [|discriminate]. cbn [bind] in B. rewrite (D _ _ Es) in Hl. injection Hl as ->.
    destruct l as [|a l]; [discriminate|]. injection B as <-. eexists. split; [exact C|]. apply MIN.
  - destruct (setdefaults_set (firstn 4 defaults_G) "s_M" (fun o => s <- getattr o "s" ;; max_of s) (skipn 5 defaults_G) _ _ E3 HN) as (o1 & v & _ & B & C & D); [cbn; intuition discriminate|].
    unfold getattr, attr in B. destruct (o1 "s") as [w|] eqn:Es; [|discriminate]. cbn [bind] in B. rewrite (D _ _ Es) in Hl. injection Hl as ->.
    destruct l as [|a l]; [discriminate|]. injection B as <-. eexists. split; [exact C|]. apply MAX.
Qed.
(** Nothing else appears: a parameter without default that the input leaves out,
    such as the time between saves, stays missing. *)
Lemma p_C47_nothing_else : forall mode (i : input R) f, get_parameters mode i = Ok f -> forall a,
  ~ In a (map fst table_P) -> ~ In a ["mode"; "phases"; "save_dir"; "nt"; "g"; "q_v"; "q_h"] -> fP f a = iP i a.
Proof.
  intros mode i f E a H1 H2. destruct (get_ok _ _ _ E) as (P1 & dir & O1 & E1 & _ & _ & _ & -> & _).
  cbn in H1, H2. rewrite !setattr_other by intuition congruence. rewrite (setdefaults_none _ _ _ E1 a) by (cbn; intuition congruence). apply setattr_other. intuition congruence.
Qed.
(** The number of steps and the energy table. *)
Lemma p_C47_nt : forall mode (i : input R) f, get_parameters mode i = Ok f -> iP i "nt" = None ->
  exists v w x y, iP i "t_f" = Some v /\ iP i "dt" = Some w /\ num_of v = Ok x /\ num_of w = Ok y /\ y <> 0 /\ fP f "nt" = Some (VInt (Rtrunc (x / y))).
Proof.
  intros mode i f E HN. destruct (get_ok _ _ _ E) as (P1 & dir & O1 & E1 & _ & _ & _ & -> & _).
  rewrite !setattr_other by discriminate.
  destruct (setdefaults_set (firstn 5 defaults_P) "nt" default_nt (skipn 6 defaults_P) _ _ E1) as (o1 & w & A & B & C & _); [rewrite setattr_other by discriminate; exact HN|cbn; intuition discriminate|].
  unfold default_nt, getattr in B.
  assert (ST : forall a, a = "t_f" \/ a = "dt" -> o1 a = iP i a).
  { intros a [->| ->]; rewrite (setdefaults_none _ _ _ A); try (apply setattr_other; discriminate); cbn; intuition discriminate. }
  rewrite (ST "t_f"), (ST "dt") in B by auto. destruct (iP i "t_f") as [v|]; [|discriminate]. cbn [attr bind] in B. destruct (iP i "dt") as [u|]; [|discriminate]. cbn [attr bind] in B.
  destruct (num_of v) as [x|] eqn:Ex; [|discriminate]. cbn [bind] in B. destruct (num_of u) as [y|] eqn:Ey; [|discriminate]. cbn [bind] in B.
  exists v, u, x, y. cbn in B. unfold Reqb in B. destruct (Req_EM_T y 0) as [|NZ]; [discriminate|]. injection B as <-. auto 10.
Qed.
(** Results go below the name that the user gave, or below the names of the
    input file and of the law of the first phase; a directory that the input file
    sets itself is ignored. *)
Lemma p_C47_save_dir : forall mode (i : input R) f, get_parameters mode i = Ok f ->
  (forall s, iP i "supername" = Some (VStr s) -> fP f "save_dir" = Some (VStr (s ++ "/"))) /\
  (iP i "supername" = None -> exists o os l, phases_of i = o :: os /\ o "law" = Some (VStr l) /\ fP f "save_dir" = Some (VStr ("im/" ++ mode ++ "/" ++ l ++ "/"))).
Proof.
  intros mode i f E. destruct (get_ok _ _ _ E) as (P1 & dir & O1 & E1 & _ & _ & E4 & EP & _ & _ & S1 & S2).
  assert (SN : P1 "supername" = iP i "supername"). { rewrite (setdefaults_none _ _ _ E1); [apply setattr_other; discriminate|cbn; intuition discriminate]. }
  assert (SD : fP f "save_dir" = Some (VStr dir)) by (rewrite EP; apply setattr_same). rewrite SD. split.
  - intros s Hs. rewrite <- SN in Hs. rewrite (S1 s Hs). reflexivity.
  - intros HN. rewrite <- SN in HN. destruct (S2 HN) as (o & S' & l & EF & EL & ->).
    pose proof (mapM_Forall2 _ _ _ E4) as F2.
    rewrite EF in F2. inversion F2 as [|o0 ? os ? Ho _ EQ]; subst. exists o0, os, l. split; [reflexivity|]. split; [|reflexivity].
    rewrite <- EL. symmetry. apply (setdefaults_none _ _ _ Ho). cbn. intuition discriminate.
Qed.
Example x_C47_defaults : exists mode (i : input R) f, get_parameters mode i = Ok f /\ iP i "max_g" = Some (VNum 10) /\ iP i "g" = None /\ fP f "g" = Some (VNum 10) /\
  iB i "box" = Some (VBool true) /\ fB f "box" = Some (VBool true) /\ fB f "wall" = Some (VBool false) /\ fP f "save_dir" = Some (VStr "im/ball/rigid/") /\ fP f "savetime" = None.
Proof.
  exists "ball", (mkInput (fun a => if String.eqb a "max_g" then Some (VNum 10) else if String.eqb a "nt" then Some (VInt 7) else None)
    (fun a => if String.eqb a "box" then Some (VBool true) else None) (fun _ => None) (fun _ => None)
    (inl (fun a => if String.eqb a "law" then Some (VStr "rigid") else None))).
  eexists. split; [reflexivity|]. cbn. repeat split; reflexivity.
Qed.
