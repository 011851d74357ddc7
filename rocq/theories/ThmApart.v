(** * Bodies apart do not feel each other, and only the density of the points counts: C99, C100. *)
From Coq Require Import ZArith Reals List Bool Arith Lra Lia.
From Verif Require Import State NumR Spec SpecLaws SpecStep SpecScheme LibList LibR ModelGrid ModelConstit ModelParticle ModelMPList
  ModelIntegr ModelMain ProofsGrid ProofsMap ProofsP2G ProofsWalls ProofsLaws ProofsInOut ProofsHist Concrete
  ThmMapping ThmWalls ThmLaws ThmInOut ThmHist ProofsStep ProofsPoints ThmStep ThmBalance ThmEnergy ThmFall ThmGeo ProofsScheme ThmScheme.
Import ListNotations.
Local Open Scope R_scope.

(** ** C99 *)
(** The members of a list that [m] marks. *)
Fixpoint pick {A} (m : list bool) (l : list A) : list A :=
  match m, l with
  | b :: m, a :: l => if b then a :: pick m l else pick m l
  | _, _ => []
  end.
(** Two cells or more between two points. *)
Definition apart (P : gridp R) (q r : mp) : Prop :=
  2 * cell_w P <= Rabs (vx (q_x q) - vx (q_x r)) \/ 2 * cell_h P <= Rabs (vy (q_x q) - vy (q_x r)).
(** The marked points are apart from the others. *)
Definition separate (P : gridp R) (m : list bool) (B : list mp) : Prop :=
  forall q r, In q (pick m B) -> In r (pick (map negb m) B) -> apart P q r.

Lemma pick_map {A B} (f : A -> B) : forall m l, pick m (map f l) = map f (pick m l).
Proof. induction m as [|b m IH]; intros [|a l]; try reflexivity. cbn [pick map]. destruct b; cbn [map]; rewrite IH; reflexivity. Qed.
Lemma pick_sum {A} (f : A -> R) : forall m l, length m = length l ->
  Rsum (map f l) = Rsum (map f (pick m l)) + Rsum (map f (pick (map negb m) l)).
Proof.
  induction m as [|b m IH]; intros [|a l] H; cbn [length] in H; try discriminate.
  - cbn. lra.
  - cbn [pick map]. injection H as H. specialize (IH l H). unfold Rsum in *. destruct b; cbn [negb map fold_right] in *; lra.
Qed.
Lemma pick_in {A} : forall m (l : list A) a, In a (pick m l) -> In a l.
Proof. induction m as [|b m IH]; intros [|c l] a H; try contradiction. cbn [pick] in H. destruct b; [destruct H as [<-|H]; [left; reflexivity|]|]; right; apply IH; exact H. Qed.

Section Apart.
  Context (E : scheme).
  Let P := e_P E.
  Context (HP : proper P).
  (** The hat of a node vanishes at a point, and so does its gradient. *)
  Definition blind (q : mp) (k : nat) : Prop := hat P (q_x q) k = 0 /\ forall a, ghat P (q_x q) a k = 0.
  Lemma blind_dec q k : blind q k \/ ~ blind q k.
  Proof.
    unfold blind. destruct (Req_dec (hat P (q_x q) k) 0); [|right; tauto].
    destruct (Req_dec (ghat P (q_x q) AX k) 0), (Req_dec (ghat P (q_x q) AY k) 0).
    - left. split; [assumption|]. intros []; try assumption. reflexivity.
    - right. intros [_ C]. specialize (C AY). contradiction.
    - right. intros [_ C]. specialize (C AX). contradiction.
    - right. intros [_ C]. specialize (C AX). contradiction.
  Qed.
  Lemma blind_x q k : (vx (q_x q) - node_x P k) / cell_w P < -1 \/ 1 <= (vx (q_x q) - node_x P k) / cell_w P -> blind q k.
  Proof.
    intros H. unfold blind, hat. rewrite tent_far by lra. split; [ring|]. intros []; unfold ghat; [rewrite slope_far by lra|rewrite tent_far by lra|]; lra.
  Qed.
  Lemma blind_y q k : (vy (q_x q) - node_y P k) / cell_h P < -1 \/ 1 <= (vy (q_x q) - node_y P k) / cell_h P -> blind q k.
  Proof.
    intros H. unfold blind, hat. rewrite (tent_far ((vy (q_x q) - node_y P k) / cell_h P)) by lra. split; [ring|].
    intros []; unfold ghat; [rewrite (tent_far ((vy (q_x q) - node_y P k) / cell_h P)) by lra|rewrite slope_far by lra|]; lra.
  Qed.
  Lemma apart_blind q r k : apart P q r -> blind q k \/ blind r k.
  Proof.
    assert (K : forall w a b c, 0 < w -> 2 * w <= Rabs (a - b) -> ((a - c) / w < -1 \/ 1 <= (a - c) / w) \/ ((b - c) / w < -1 \/ 1 <= (b - c) / w)).
    { intros w a b c Hw H. set (t := (a - c) / w). set (u := (b - c) / w).
      assert (D : a - b = (t - u) * w) by (unfold t, u; field; lra). rewrite D, Rabs_mult, (Rabs_right w) in H by lra.
      assert (2 <= Rabs (t - u)) by (apply Rmult_le_reg_r with w; assumption).
      destruct (Rlt_dec t (-1)); [lra|]. destruct (Rle_dec 1 t); [lra|]. destruct (Rlt_dec u (-1)); [lra|]. destruct (Rle_dec 1 u); [lra|].
      unfold Rabs in *. destruct (Rcase_abs (t - u)); lra. }
    intros [H|H].
    - destruct (K _ _ _ (node_x P k) (cell_w_pos P HP) H); [left|right]; apply blind_x; assumption.
    - destruct (K _ _ _ (node_y P k) (cell_h_pos P HP) H); [left|right]; apply blind_y; assumption.
  Qed.

  Context (m : list bool) (B : list mp) (HL : length m = length B) (HS : separate P m B).
  Let A := pick m B.
  Let F := pick (map negb m) B.
  (** At a node that a marked point sees, the others do not count. *)
  Lemma lonely q k : In q A -> blind q k \/ forall r, In r F -> blind r k.
  Proof.
    intros Hq. destruct (blind_dec q k) as [Y|N]; [left; exact Y|right]. intros r Hr. destruct (apart_blind q r k (HS q r Hq Hr)); [contradiction|assumption].
  Qed.
  Lemma apart_mass k : (forall r, In r F -> blind r k) -> t_mass E B k = t_mass E A k.
  Proof. intros H. unfold t_mass. rewrite (pick_sum _ m B HL). fold A F. rewrite (Rsum_zero _ F); [ring|]. intros r Hr. fold P. rewrite (proj1 (H r Hr)). ring. Qed.
  Lemma apart_vel a k : (forall r, In r F -> blind r k) -> t_vel E B a k = t_vel E A a k.
  Proof.
    intros H. unfold t_vel. rewrite (apart_mass k H). rewrite (pick_sum _ m B HL). fold A F. rewrite (Rsum_zero _ F), Rplus_0_r; [reflexivity|].
    intros r Hr. fold P. rewrite (proj1 (H r Hr)). ring.
  Qed.
  Lemma apart_strain q : In q A -> t_strain E B q = t_strain E A q.
  Proof.
    intros Hq. assert (K : forall a b, e_dt E * fsum (e_nodes E) (fun k => (t_vel E B a k * ghat (e_P E) (q_x q) b k + t_vel E B b k * ghat (e_P E) (q_x q) a k) / 2)
      = e_dt E * fsum (e_nodes E) (fun k => (t_vel E A a k * ghat (e_P E) (q_x q) b k + t_vel E A b k * ghat (e_P E) (q_x q) a k) / 2)).
    { intros a b. f_equal. apply fsum_ext. intros k _. destruct (lonely q k Hq) as [[_ G]|Y].
      - fold P. rewrite !G. lra.
      - rewrite !(apart_vel _ k Y). reflexivity. }
    unfold t_strain, m3. rewrite !K. reflexivity.
  Qed.
  Lemma apart_strained q : In q A -> t_strained E B q = t_strained E A q.
  Proof. intros Hq. unfold t_strained. rewrite (apart_strain q Hq). reflexivity. Qed.
  Lemma apart_acc a k : (forall r, In r F -> blind r k) -> t_acc E B (map (t_strained E B) B) a k = t_acc E A (map (t_strained E A) A) a k.
  Proof.
    intros H. unfold t_acc. rewrite (apart_mass k H). unfold t_force. rewrite !map_map. rewrite (pick_sum _ m B HL). fold A F.
    rewrite (Rsum_zero _ F), Rplus_0_r.
    - rewrite (Rsum_ext _ (fun x => q_m (t_strained E A x) * comp a (q_b (t_strained E A x)) * hat (e_P E) (q_x (t_strained E A x)) k -
         q_V (t_strained E A x) * over (fun b => el a b (q_s (t_strained E A x)) * ghat (e_P E) (q_x (t_strained E A x)) b k)) A); [reflexivity|].
      intros q Hq. rewrite (apart_strained q Hq). reflexivity.
    - intros r Hr. destruct (H r Hr) as [H1 H2]. change (q_x (t_strained E B r)) with (q_x r). fold P. unfold over. rewrite H1, !H2. ring.
  Qed.
  Lemma apart_step : pick m (t_step E B) = t_step E A.
  Proof.
    unfold t_step. rewrite !pick_map. fold A. rewrite !map_map. apply map_ext_in. intros q Hq. rewrite (apart_strained q Hq).
    set (q1 := t_strained E A q). assert (X : q_x q1 = q_x q) by reflexivity.
    assert (K1 : forall a, fsum (e_nodes E) (fun k => hat (e_P E) (q_x q1) k * (t_vel E B a k + e_dt E * t_acc E B (map (t_strained E B) B) a k))
      = fsum (e_nodes E) (fun k => hat (e_P E) (q_x q1) k * (t_vel E A a k + e_dt E * t_acc E A (map (t_strained E A) A) a k))).
    { intros a. apply fsum_ext. intros k _. rewrite X. destruct (lonely q k Hq) as [[G _]|Y].
      - fold P. rewrite !G. lra.
      - rewrite (apart_vel _ k Y), (apart_acc _ k Y). reflexivity. }
    assert (K2 : forall a, fsum (e_nodes E) (fun k => hat (e_P E) (q_x q1) k * t_acc E B (map (t_strained E B) B) a k)
      = fsum (e_nodes E) (fun k => hat (e_P E) (q_x q1) k * t_acc E A (map (t_strained E A) A) a k)).
    { intros a. apply fsum_ext. intros k _. rewrite X. destruct (lonely q k Hq) as [[G _]|Y].
      - fold P. rewrite !G. lra.
      - rewrite (apart_acc _ k Y). reflexivity. }
    unfold t_moved, v3. rewrite !K1, !K2. reflexivity.
  Qed.
End Apart.

Lemma t_step_length E B : length (t_step E B) = length B.
Proof. unfold t_step. rewrite !map_length. reflexivity. Qed.
Lemma t_run_pG uf P : pG (ticked uf P) = pG P.
Proof. reflexivity. Qed.

Lemma apart_run uf : forall n (P : params R) G m B, proper (pG P) -> length m = length B ->
  (forall j, (j < n)%nat -> separate (pG P) m (t_run uf j P G B)) ->
  t_run uf n P G (pick m B) = pick m (t_run uf n P G B).
Proof.
  induction n as [|n IH]; intros P G m B HP HL HS; [reflexivity|].
  cbn [t_run]. rewrite <- (apart_step (scheme_of P (uf P) G) HP m B HL (HS 0%nat ltac:(lia))).
  apply IH; [exact HP|rewrite t_step_length; exact HL|]. intros j Hj. specialize (HS (Datatypes.S j) ltac:(lia)). cbn [t_run] in HS. exact HS.
Qed.
Lemma t_run_length uf : forall n (P : params R) G B, length (t_run uf n P G B) = length B.
Proof. induction n as [|n IH]; intros P G B; [reflexivity|]. cbn [t_run]. rewrite IH. apply t_step_length. Qed.

(** A body all of whose points stay two cells away, along one of the axes, from all other points moves as if the
    others were not there: the run that has only these points gives them, at every pass, exactly the positions,
    velocities and stresses that they have in the full run. *)
Lemma p_C99_alone : forall uf fill n (s s1 : state R) m tr tr1, plain s -> plain s1 -> sP s1 = sP s -> sG s1 = sG s ->
  (forall P, no_surface (sP s) (uf P)) -> length m = length (bodies (sL s)) ->
  bodies (sL s1) = pick m (bodies (sL s)) ->
  (forall j, (j < n)%nat -> exists s' tr', after uf fill j s tr = Ok (s', tr') /\
     Forall (fun q => in_dom (pG (sP s)) (q_x q) /\ (p_check (sP s) = true -> vz (q_x q) = 0)) (bodies (sL s')) /\
     separate (pG (sP s)) m (bodies (sL s'))) ->
  exists s' tr' s1' tr1', after uf fill n s tr = Ok (s', tr') /\ after uf fill n s1 tr1 = Ok (s1', tr1') /\
    bodies (sL s1') = pick m (bodies (sL s')).
Proof.
  intros uf fill n s s1 m tr tr1 HP HP1 EP EG HN HL HB HI.
  assert (K : forall j, (j <= n)%nat -> exists s' tr', after uf fill j s tr = Ok (s', tr') /\ bodies (sL s') = t_run uf j (sP s) (sG s) (bodies (sL s))).
  { intros j. induction j as [j IH] using lt_wf_ind. intros Hj.
    destruct (p_C84_run uf fill j s tr HP HN) as (s' & tr' & E & _ & EB).
    - intros i Hi. destruct (IH i Hi ltac:(lia)) as (s2 & tr2 & E2 & EB2). destruct (HI i ltac:(lia)) as (s3 & tr3 & E3 & F & _). rewrite E2 in E3. injection E3 as <- <-.
      rewrite <- EB2. exact F.
    - exists s', tr'. split; assumption. }
  destruct (K n (le_n n)) as (s' & tr' & E & EB).
  assert (SEP : forall j, (j < n)%nat -> separate (pG (sP s)) m (t_run uf j (sP s) (sG s) (bodies (sL s)))).
  { intros j Hj. destruct (K j ltac:(lia)) as (s2 & tr2 & E2 & EB2). destruct (HI j Hj) as (s3 & tr3 & E3 & _ & F). rewrite E2 in E3. injection E3 as <- <-. rewrite <- EB2. exact F. }
  destruct (p_C84_run uf fill n s1 tr1 HP1) as (s1' & tr1' & E1 & _ & EB1).
  - intros P. rewrite EP. apply HN.
  - intros j Hj. rewrite EP, EG, HB, apart_run by (try exact (pl_proper _ HP); try exact HL; intros i Hi; apply SEP; lia).
    destruct (K j ltac:(lia)) as (s2 & tr2 & E2 & EB2). destruct (HI j Hj) as (s3 & tr3 & E3 & F & _). rewrite E2 in E3. injection E3 as <- <-. rewrite EB2 in F.
    rewrite Forall_forall in *. intros q Hq. apply F. apply pick_in in Hq. exact Hq.
  - exists s', tr', s1', tr1'. split; [exact E|]. split; [exact E1|]. rewrite EB1, EB, EP, EG, HB. apply apart_run; [exact (pl_proper _ HP)|exact HL|exact SEP].
Qed.

(** ** C100 *)
(** A point replaced by points at the same place, in the same state, that share its mass and volume in the
    proportions [ws]. *)
Definition part (q : mp) (f : R) : mp :=
  mkMp (q_mat q) (f * q_m q) (f * q_V q) (q_x q) (q_v q) (q_s q) (q_p q) (q_b q) (q_first q).
Fixpoint cut (W : list (list R)) (B : list mp) : list mp :=
  match W, B with
  | ws :: W, q :: B => map (part q) ws ++ cut W B
  | _, _ => []
  end.

Section Cut.
  Context (E : scheme) (W : list (list R)) (HW : Forall (fun ws => Rsum ws = 1) W).
  Lemma cut_sum (f g : mp -> R) : (forall q r, f (part q r) = r * g q) -> forall B, length W = length B ->
    Rsum (map f (cut W B)) = Rsum (map g B).
  Proof.
    intros H. induction HW as [|ws W' Hs HW' IH]; intros [|q B] HL; try discriminate; [reflexivity|].
    cbn [cut]. rewrite map_app, Rsum_app, map_map. cbn [map]. change (Rsum (g q :: map g B)) with (g q + Rsum (map g B)).
    rewrite (IH HW' B) by (injection HL as HL; exact HL). f_equal.
    rewrite (Rsum_ext _ (fun r => g q * r)) by (intros r _; rewrite H; ring). rewrite Rsum_scal, map_id, Hs. ring.
  Qed.
  Lemma cut_map (f g : mp -> mp) : (forall q r, f (part q r) = part (g q) r) -> forall B, map f (cut W B) = cut W (map g B).
  Proof.
    clear HW. intros H. induction W as [|ws W' IH]; intros [|q B]; try reflexivity.
    cbn [cut map]. rewrite map_app, map_map, IH. f_equal. apply map_ext. intros r. apply H.
  Qed.
  Context (B : list mp) (HL : length W = length B).
  Lemma cut_mass k : t_mass E (cut W B) k = t_mass E B k.
  Proof. unfold t_mass. apply cut_sum; [|exact HL]. intros q r. cbn [part q_m q_x]. ring. Qed.
  Lemma cut_vel a k : t_vel E (cut W B) a k = t_vel E B a k.
  Proof.
    unfold t_vel. rewrite cut_mass. rewrite (cut_sum _ (fun q => q_m q * comp a (q_v q) * hat (e_P E) (q_x q) k)); [reflexivity| |exact HL].
    intros q r. cbn [part q_m q_x q_v]. ring.
  Qed.
  Lemma cut_strained q r : t_strained E (cut W B) (part q r) = part (t_strained E B q) r.
  Proof.
    assert (D : t_strain E (cut W B) (part q r) = t_strain E B q).
    { unfold t_strain, m3. f_equal; f_equal; apply fsum_ext; intros k _; rewrite !cut_vel; reflexivity. }
    unfold t_strained. rewrite D. reflexivity.
  Qed.
  Lemma cut_acc a k : t_acc E (cut W B) (map (t_strained E (cut W B)) (cut W B)) a k = t_acc E B (map (t_strained E B) B) a k.
  Proof.
    unfold t_acc. rewrite cut_mass. rewrite (cut_map _ _ cut_strained). unfold t_force.
    rewrite (cut_sum _ (fun q => q_m q * comp a (q_b q) * hat (e_P E) (q_x q) k - q_V q * over (fun b => el a b (q_s q) * ghat (e_P E) (q_x q) b k))); [reflexivity| |].
    - intros q r. cbn [part q_m q_x q_b q_V q_s]. unfold over. ring.
    - rewrite map_length. exact HL.
  Qed.
  Lemma cut_step : t_step E (cut W B) = cut W (t_step E B).
  Proof.
    unfold t_step. rewrite (cut_map _ (t_strained E B) cut_strained). apply cut_map. intros q r.
    rewrite <- (cut_map _ _ cut_strained B).
    assert (K1 : forall a, fsum (e_nodes E) (fun k => hat (e_P E) (q_x q) k * (t_vel E (cut W B) a k + e_dt E * t_acc E (cut W B) (map (t_strained E (cut W B)) (cut W B)) a k))
      = fsum (e_nodes E) (fun k => hat (e_P E) (q_x q) k * (t_vel E B a k + e_dt E * t_acc E B (map (t_strained E B) B) a k))).
    { intros a. apply fsum_ext. intros k _. rewrite cut_vel, cut_acc. reflexivity. }
    assert (K2 : forall a, fsum (e_nodes E) (fun k => hat (e_P E) (q_x q) k * t_acc E (cut W B) (map (t_strained E (cut W B)) (cut W B)) a k)
      = fsum (e_nodes E) (fun k => hat (e_P E) (q_x q) k * t_acc E B (map (t_strained E B) B) a k)).
    { intros a. apply fsum_ext. intros k _. rewrite cut_acc. reflexivity. }
    unfold t_moved, v3. change (q_x (part q r)) with (q_x q). rewrite !K1, !K2. reflexivity.
  Qed.
End Cut.

Lemma cut_run uf W : Forall (fun ws => Rsum ws = 1) W -> forall n (P : params R) G B, length W = length B ->
  t_run uf n P G (cut W B) = cut W (t_run uf n P G B).
Proof.
  intros HW. induction n as [|n IH]; intros P G B HL; [reflexivity|]. cbn [t_run]. rewrite cut_step by assumption. apply IH. rewrite t_step_length. exact HL.
Qed.
Lemma cut_in : forall W B q, In q (cut W B) -> exists q0 r, In q0 B /\ q = part q0 r.
Proof.
  induction W as [|ws W IH]; intros [|q0 B] q H; try contradiction. cbn [cut] in H. apply in_app_iff in H as [H|H].
  - apply in_map_iff in H as (r & <- & _). exists q0, r. split; [left; reflexivity|reflexivity].
  - destruct (IH B q H) as (q1 & r & A & ->). exists q1, r. split; [right; exact A|reflexivity].
Qed.

(** A point may be replaced by any number of points at the same place and in the same state that share its mass and
    volume, each point in proportions of its own: every pass gives all of them the position, velocity and stress of
    the point they replace. *)
Lemma p_C100_parts : forall uf fill n (s s1 : state R) W tr tr1, plain s -> plain s1 -> sP s1 = sP s -> sG s1 = sG s ->
  (forall P, no_surface (sP s) (uf P)) -> Forall (fun ws => Rsum ws = 1) W -> length W = length (bodies (sL s)) ->
  bodies (sL s1) = cut W (bodies (sL s)) ->
  (forall j, (j < n)%nat -> exists s' tr', after uf fill j s tr = Ok (s', tr') /\
     Forall (fun q => in_dom (pG (sP s)) (q_x q) /\ (p_check (sP s) = true -> vz (q_x q) = 0)) (bodies (sL s'))) ->
  exists s' tr' s1' tr1', after uf fill n s tr = Ok (s', tr') /\ after uf fill n s1 tr1 = Ok (s1', tr1') /\
    bodies (sL s1') = cut W (bodies (sL s')).
Proof.
  intros uf fill n s s1 W tr tr1 HP HP1 EP EG HN HW HL HB HI.
  assert (K : forall j, (j <= n)%nat -> exists s' tr', after uf fill j s tr = Ok (s', tr') /\ bodies (sL s') = t_run uf j (sP s) (sG s) (bodies (sL s))).
  { intros j. induction j as [j IH] using lt_wf_ind. intros Hj.
    destruct (p_C84_run uf fill j s tr HP HN) as (s' & tr' & E & _ & EB).
    - intros i Hi. destruct (IH i Hi ltac:(lia)) as (s2 & tr2 & E2 & EB2). destruct (HI i ltac:(lia)) as (s3 & tr3 & E3 & F). rewrite E2 in E3. injection E3 as <- <-.
      rewrite <- EB2. exact F.
    - exists s', tr'. split; assumption. }
  destruct (K n (le_n n)) as (s' & tr' & E & EB).
  destruct (p_C84_run uf fill n s1 tr1 HP1) as (s1' & tr1' & E1 & _ & EB1).
  - intros P. rewrite EP. apply HN.
  - intros j Hj. rewrite EP, EG, HB, cut_run by assumption.
    destruct (K j ltac:(lia)) as (s2 & tr2 & E2 & EB2). destruct (HI j Hj) as (s3 & tr3 & E3 & F). rewrite E2 in E3. injection E3 as <- <-. rewrite EB2 in F.
    rewrite Forall_forall in *. intros q Hq. apply cut_in in Hq as (q0 & r & A & ->). apply (F q0 A).
  - exists s', tr', s1', tr1'. split; [exact E|]. split; [exact E1|]. rewrite EB1, EB, EP, EG, HB. apply cut_run; assumption.
Qed.

(** The examples: strained elastic points in an open domain, under gravity. *)
Definition some_state (G : grid R) (ps : list (particle R)) : state R :=
  mkState (ex_params ex_bounds) G [mkPhase (ex_solid Elastic) (length ps) v0 ps].
Lemma some_plain G ps : grid_ok ex_gridp G -> (forall p, In p ps -> exists v, pv p = Own v) -> plain (some_state G ps).
Proof.
  intros OK HO. constructor; try reflexivity; try (cbn; lra).
  - exact ex_proper.
  - exact OK.
  - intros ph [<-|[]]. reflexivity.
  - intros ph [<-|[]]. left. reflexivity.
  - exists (ex_solid Elastic). split; [reflexivity|]. intros ph [<-|[]]. split; discriminate.
  - intros ph p [<-|[]] Hp. unfold live in Hp. cbn [ph_n ph_pts] in Hp. rewrite firstn_all in Hp. apply HO. exact Hp.
  - repeat split; reflexivity.
  - left. reflexivity.
Qed.
Definition left_one : particle R := ex_particle (1/4) (1/2) (mkV3 1 0 0) ex_stress.
Definition right_one : particle R := ex_particle (11/4) (1/2) (mkV3 0 (-1) 0) ex_stress.

(** Two points, two cells and a half apart, one of which is left out. *)
Example x_C99_alone : forall fill, exists s s1 m, plain s /\ plain s1 /\ sP s1 = sP s /\ sG s1 = sG s /\ (forall P, no_surface (sP s) (fall_loads P)) /\
  length m = length (bodies (sL s)) /\ bodies (sL s1) = pick m (bodies (sL s)) /\
  (length (bodies (sL s)) = 2 /\ length (bodies (sL s1)) = 1)%nat /\
  (forall j, (j < 1)%nat -> exists s' tr', after fall_loads fill j s [] = Ok (s', tr') /\
     Forall (fun q => in_dom (pG (sP s)) (q_x q) /\ (p_check (sP s) = true -> vz (q_x q) = 0)) (bodies (sL s')) /\
     separate (pG (sP s)) m (bodies (sL s'))) /\
  exists s' tr' s1' tr1', after fall_loads fill 1 s [] = Ok (s', tr') /\ after fall_loads fill 1 s1 [] = Ok (s1', tr1') /\
    bodies (sL s1') = pick m (bodies (sL s')).
Proof.
  intros fill. destruct (grid_init_ok ex_gridp ex_bounds ex_proper) as (G & EG & OK).
  set (s := some_state G [left_one; right_one]). set (s1 := some_state G [left_one]).
  assert (P0 : plain s) by (apply some_plain; [exact OK|]; intros p [<-|[<-|[]]]; eexists; reflexivity).
  assert (P1 : plain s1) by (apply some_plain; [exact OK|]; intros p [<-|[]]; eexists; reflexivity).
  assert (H : forall j, (j < 1)%nat -> exists s' tr', after fall_loads fill j s [] = Ok (s', tr') /\
     Forall (fun q => in_dom (pG (sP s)) (q_x q) /\ (p_check (sP s) = true -> vz (q_x q) = 0)) (bodies (sL s')) /\
     separate (pG (sP s)) [true; false] (bodies (sL s'))).
  { intros [|j] Hj; [|lia]. exists s, []. split; [reflexivity|]. split.
    - repeat constructor; cbn; try lra.
    - intros q r [<-|[]] [<-|[]]. left. unfold cell_w. cbn. rewrite Rabs_left; lra. }
  exists s, s1, [true; false]. split; [exact P0|]. split; [exact P1|]. split; [reflexivity|]. split; [reflexivity|]. split; [intros; split; reflexivity|].
  split; [reflexivity|]. split; [reflexivity|]. split; [split; reflexivity|]. split; [exact H|].
  apply p_C99_alone; auto; try reflexivity. intros; split; reflexivity.
Qed.

(** Two points, one of them cut in three parts. *)
Example x_C100_parts : forall fill, exists s s1 W, plain s /\ plain s1 /\ sP s1 = sP s /\ sG s1 = sG s /\ (forall P, no_surface (sP s) (fall_loads P)) /\
  Forall (fun ws => Rsum ws = 1) W /\ length W = length (bodies (sL s)) /\ bodies (sL s1) = cut W (bodies (sL s)) /\
  (length (bodies (sL s)) = 2 /\ length (bodies (sL s1)) = 4)%nat /\
  exists s' tr' s1' tr1', after fall_loads fill 1 s [] = Ok (s', tr') /\ after fall_loads fill 1 s1 [] = Ok (s1', tr1') /\
    bodies (sL s1') = cut W (bodies (sL s')).
Proof.
  intros fill. destruct (grid_init_ok ex_gridp ex_bounds ex_proper) as (G & EG & OK).
  set (s := some_state G [left_one; ex_p2]).
  set (s1 := some_state G [left_one <| pm := 1/2 * 2 |> <| pV := 1/2 * 1 |>; left_one <| pm := 1/3 * 2 |> <| pV := 1/3 * 1 |>; left_one <| pm := 1/6 * 2 |> <| pV := 1/6 * 1 |>; ex_p2]).
  assert (P0 : plain s) by (apply some_plain; [exact OK|]; intros p [<-|[<-|[]]]; eexists; reflexivity).
  assert (P1 : plain s1) by (apply some_plain; [exact OK|]; intros p [<-|[<-|[<-|[<-|[]]]]]; eexists; reflexivity).
  assert (W : Forall (fun ws => Rsum ws = 1) [[1/2; 1/3; 1/6]; [1]]) by (repeat constructor; cbn; lra).
  assert (EB : bodies (sL s1) = cut [[1/2; 1/3; 1/6]; [1]] (bodies (sL s))).
  { cbn. unfold mp_of, part. cbn. repeat f_equal; unfold n2; unR; lra. }
  assert (NS : forall P, no_surface (sP s) (fall_loads P)) by (intros; split; reflexivity).
  exists s, s1, [[1/2; 1/3; 1/6]; [1]]. split; [exact P0|]. split; [exact P1|]. split; [reflexivity|]. split; [reflexivity|]. split; [exact NS|].
  split; [exact W|]. split; [reflexivity|]. split; [exact EB|]. split; [split; reflexivity|].
  apply p_C100_parts; auto; try reflexivity.
  intros [|j] Hj; [|lia]. exists s, []. split; [reflexivity|]. repeat constructor; cbn; unfold n2, n3, lit; unR; try lra.
Qed.
