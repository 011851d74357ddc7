(** * Bodies apart and cut points, for eight materials: C103, C104; the path of an intruder: C105. *)
From Coq Require Import ZArith Reals List Bool Arith Lra Lia.
From Verif Require Import State NumR Spec SpecLaws SpecStep SpecScheme SpecLocal LibList LibR ModelGrid ModelConstit ModelParticle ModelMPList
  ModelIntegr ModelMain ProofsGrid ProofsMap ProofsP2G ProofsWalls ProofsLaws ProofsInOut ProofsHist Concrete
  ThmMapping ThmWalls ThmLaws ThmInOut ThmHist ProofsStep ProofsPoints ThmStep ThmBalance ThmEnergy ThmFall ThmGeo ProofsScheme ThmScheme ProofsLocal ThmLocal ThmApart.
Import ListNotations.
Local Open Scope R_scope.

(** ** C103 *)
(** Two cells or more between two places. *)
Definition far (P : gridp R) (x y : V3 R) : Prop :=
  2 * cell_w P <= Rabs (vx x - vx y) \/ 2 * cell_h P <= Rabs (vy x - vy y).
(** The marked points are apart from the others. *)
Definition asunder (P : gridp R) (m : list bool) (B : list point) : Prop :=
  forall q r, In q (pick m B) -> In r (pick (map negb m) B) -> far P (z_x q) (z_x r).

Section Apart.
  Context (E : ambient).
  Let P := a_P E.
  Context (HP : proper P).
  (** The hat of a node vanishes at a place, and so does its gradient. *)
  Definition dark (x : V3 R) (k : nat) : Prop := hat P x k = 0 /\ forall a, ghat P x a k = 0.
  Lemma dark_dec x k : dark x k \/ ~ dark x k.
  Proof.
    unfold dark. destruct (Req_dec (hat P x k) 0); [|right; tauto].
    destruct (Req_dec (ghat P x AX k) 0), (Req_dec (ghat P x AY k) 0).
    - left. split; [assumption|]. intros []; try assumption. reflexivity.
    - right. intros [_ C]. specialize (C AY). contradiction.
    - right. intros [_ C]. specialize (C AX). contradiction.
    - right. intros [_ C]. specialize (C AX). contradiction.
  Qed.
  Lemma dark_x x k : (vx x - node_x P k) / cell_w P < -1 \/ 1 <= (vx x - node_x P k) / cell_w P -> dark x k.
  Proof.
    intros H. unfold dark, hat. rewrite tent_far by lra. split; [ring|]. intros []; unfold ghat; [rewrite slope_far by lra|rewrite tent_far by lra|]; lra.
  Qed.
  Lemma dark_y x k : (vy x - node_y P k) / cell_h P < -1 \/ 1 <= (vy x - node_y P k) / cell_h P -> dark x k.
  Proof.
    intros H. unfold dark, hat. rewrite (tent_far ((vy x - node_y P k) / cell_h P)) by lra. split; [ring|].
    intros []; unfold ghat; [rewrite (tent_far ((vy x - node_y P k) / cell_h P)) by lra|rewrite slope_far by lra|]; lra.
  Qed.
  Lemma far_dark x y k : far P x y -> dark x k \/ dark y k.
  Proof.
    assert (K : forall w a b c, 0 < w -> 2 * w <= Rabs (a - b) -> ((a - c) / w < -1 \/ 1 <= (a - c) / w) \/ ((b - c) / w < -1 \/ 1 <= (b - c) / w)).
    { intros w a b c Hw H. set (t := (a - c) / w). set (u := (b - c) / w).
      assert (D : a - b = (t - u) * w) by (unfold t, u; field; lra). rewrite D, Rabs_mult, (Rabs_right w) in H by lra.
      assert (2 <= Rabs (t - u)) by (apply Rmult_le_reg_r with w; assumption).
      destruct (Rlt_dec t (-1)); [lra|]. destruct (Rle_dec 1 t); [lra|]. destruct (Rlt_dec u (-1)); [lra|]. destruct (Rle_dec 1 u); [lra|].
      unfold Rabs in *. destruct (Rcase_abs (t - u)); lra. }
    intros [H|H].
    - destruct (K _ _ _ (node_x P k) (cell_w_pos P HP) H); [left|right]; apply dark_x; assumption.
    - destruct (K _ _ _ (node_y P k) (cell_h_pos P HP) H); [left|right]; apply dark_y; assumption.
  Qed.

  Context (m : list bool) (B : list point) (HL : length m = length B) (HS : asunder P m B).
  Let A := pick m B.
  Let F := pick (map negb m) B.
  (** At a node that a marked point sees, the others do not count. *)
  Lemma single q k : In q A -> dark (z_x q) k \/ forall r, In r F -> dark (z_x r) k.
  Proof.
    intros Hq. destruct (dark_dec (z_x q) k) as [Y|N]; [left; exact Y|right]. intros r Hr. destruct (far_dark _ _ k (HS q r Hq Hr)); [contradiction|assumption].
  Qed.
  Lemma single_mass k : (forall r, In r F -> dark (z_x r) k) -> z_mass E B k = z_mass E A k.
  Proof. intros H. unfold z_mass. rewrite (pick_sum _ m B HL). fold A F. rewrite (Rsum_zero _ F); [ring|]. intros r Hr. fold P. rewrite (proj1 (H r Hr)). ring. Qed.
  Lemma single_vel a k : (forall r, In r F -> dark (z_x r) k) -> z_vel E B a k = z_vel E A a k.
  Proof.
    intros H. unfold z_vel. rewrite (single_mass k H). rewrite (pick_sum _ m B HL). fold A F. rewrite (Rsum_zero _ F), Rplus_0_r; [reflexivity|].
    intros r Hr. fold P. rewrite (proj1 (H r Hr)). ring.
  Qed.
  Lemma single_strain q : In q A -> z_strain E B q = z_strain E A q.
  Proof.
    intros Hq. assert (K : forall a b, a_dt E * fsum (a_nodes E) (fun k => (z_vel E B a k * ghat (a_P E) (z_x q) b k + z_vel E B b k * ghat (a_P E) (z_x q) a k) / 2)
      = a_dt E * fsum (a_nodes E) (fun k => (z_vel E A a k * ghat (a_P E) (z_x q) b k + z_vel E A b k * ghat (a_P E) (z_x q) a k) / 2)).
    { intros a b. f_equal. apply fsum_ext. intros k _. destruct (single q k Hq) as [[_ G]|Y].
      - fold P. rewrite !G. lra.
      - rewrite !(single_vel _ k Y). reflexivity. }
    unfold z_strain, m3. rewrite !K. reflexivity.
  Qed.
  Lemma single_strained q : In q A -> z_strained E B q = z_strained E A q.
  Proof. intros Hq. unfold z_strained. rewrite (single_strain q Hq). reflexivity. Qed.
  Lemma single_acc a k : (forall r, In r F -> dark (z_x r) k) -> z_acc E B (map (z_strained E B) B) a k = z_acc E A (map (z_strained E A) A) a k.
  Proof.
    intros H. unfold z_acc. rewrite (single_mass k H). unfold z_force. rewrite !map_map. rewrite (pick_sum _ m B HL). fold A F.
    rewrite (Rsum_zero _ F), Rplus_0_r.
    - rewrite (Rsum_ext _ (fun x => z_m (z_strained E A x) * comp a (z_b (z_strained E A x)) * hat (a_P E) (z_x (z_strained E A x)) k -
         z_V (z_strained E A x) * over (fun b => el a b (z_s (z_strained E A x)) * ghat (a_P E) (z_x (z_strained E A x)) b k)) A); [reflexivity|].
      intros q Hq. rewrite (single_strained q Hq). reflexivity.
    - intros r Hr. destruct (H r Hr) as [H1 H2]. change (z_x (z_strained E B r)) with (z_x r). fold P. unfold over. rewrite H1, !H2. ring.
  Qed.
  Lemma single_end a k : (forall r, In r F -> dark (z_x r) k) -> z_end E B (map (z_strained E B) B) a k = z_end E A (map (z_strained E A) A) a k.
  Proof. intros H. unfold z_end. rewrite (single_mass k H), (single_vel a k H), (single_acc a k H). reflexivity. Qed.
  Lemma single_rho k : (forall r, In r F -> dark (z_x r) k) -> z_rho E B k = z_rho E A k.
  Proof. intros H. unfold z_rho. rewrite (single_mass k H). reflexivity. Qed.
  Lemma single_sum q (f g : nat -> R) : In q A -> (forall k, (forall r, In r F -> dark (z_x r) k) -> f k = g k) ->
    fsum (a_nodes E) (fun k => hat (a_P E) (z_x q) k * f k) = fsum (a_nodes E) (fun k => hat (a_P E) (z_x q) k * g k).
  Proof. intros Hq H. apply fsum_ext. intros k _. destruct (single q k Hq) as [[G _]|Y]; [fold P; rewrite !G; lra|rewrite (H k Y); reflexivity]. Qed.
  Lemma single_step : pick m (z_step E B) = z_step E A.
  Proof.
    unfold z_step. rewrite !pick_map. fold A. rewrite !map_map. apply map_ext_in. intros q Hq. rewrite (single_strained q Hq).
    set (q1 := z_strained E A q). assert (X : z_x q1 = z_x q) by reflexivity.
    assert (K1 : forall a, fsum (a_nodes E) (fun k => hat (a_P E) (z_x q1) k * z_end E B (map (z_strained E B) B) a k)
      = fsum (a_nodes E) (fun k => hat (a_P E) (z_x q1) k * z_end E A (map (z_strained E A) A) a k))
      by (intros a; rewrite X; apply single_sum; [exact Hq|]; intros k Y; apply single_end; exact Y).
    assert (K2 : forall a, fsum (a_nodes E) (fun k => hat (a_P E) (z_x q1) k * z_acc E B (map (z_strained E B) B) a k)
      = fsum (a_nodes E) (fun k => hat (a_P E) (z_x q1) k * z_acc E A (map (z_strained E A) A) a k))
      by (intros a; rewrite X; apply single_sum; [exact Hq|]; intros k Y; apply single_acc; exact Y).
    assert (K3 : z_dense E B (z_x q1) (z_stuff q1) = z_dense E A (z_x q1) (z_stuff q1)).
    { unfold z_dense. rewrite X. rewrite (single_sum q (z_rho E B) (z_rho E A) Hq single_rho). reflexivity. }
    unfold z_moved, v3. rewrite !K1, !K2, K3. reflexivity.
  Qed.
End Apart.

Lemma z_step_length E B : length (z_step E B) = length B.
Proof. unfold z_step. rewrite !map_length. reflexivity. Qed.
Lemma single_run uf rho : forall n (P : params R) G m B, proper (pG P) -> length m = length B ->
  (forall j, (j < n)%nat -> asunder (pG P) m (z_run uf rho j P G B)) ->
  z_run uf rho n P G (pick m B) = pick m (z_run uf rho n P G B).
Proof.
  induction n as [|n IH]; intros P G m B HP HL HS; [reflexivity|].
  cbn [z_run]. rewrite <- (single_step (ambient_of P rho (uf P) G) HP m B HL (HS 0%nat ltac:(lia))).
  apply IH; [exact HP|rewrite z_step_length; exact HL|]. intros j Hj. specialize (HS (Datatypes.S j) ltac:(lia)). cbn [z_run] in HS. exact HS.
Qed.

(** The run of the scheme that a successful run of the code follows. *)
Lemma along uf fill n (s : state R) tr S0 : whole s -> sol0 (sL s) = Ok S0 ->
  (forall j, (j <= n)%nat -> exists s' tr', after uf fill j s tr = Ok (s', tr') /\
     ((j < n)%nat -> Forall (fun q => in_dom (pG (sP s)) (z_x q)) (cloud (sP s) (sL s')))) ->
  forall j, (j <= n)%nat -> exists s' tr', after uf fill j s tr = Ok (s', tr') /\
     cloud (sP s) (sL s') = z_run uf (s_rho S0) j (sP s) (sG s) (cloud (sP s) (sL s)).
Proof.
  intros HW H0 HI j. induction j as [j IH] using lt_wf_ind. intros Hj.
  destruct (HI j Hj) as (s' & tr' & E & _). exists s', tr'. split; [exact E|].
  apply (p_C102_run uf fill j s tr s' tr' S0 HW H0); [|exact E].
  intros i Hi. destruct (IH i Hi ltac:(lia)) as (s2 & tr2 & E2 & EB2). destruct (HI i ltac:(lia)) as (s3 & tr3 & E3 & F3). rewrite E2 in E3. injection E3 as <- <-.
  rewrite <- EB2. apply F3. lia.
Qed.

(** Whatever the materials, a body all of whose points stay two cells away, along one of the axes, from all other points
    moves as if the others were not there: the run with only these points gives them exactly the same places,
    velocities, stresses, masses and memories. *)
Lemma p_C103_alone : forall uf fill n (s s1 : state R) m tr tr1 S0 S1 s1' tr1', whole s -> whole s1 -> sP s1 = sP s -> sG s1 = sG s ->
  sol0 (sL s) = Ok S0 -> sol0 (sL s1) = Ok S1 -> s_rho S1 = s_rho S0 ->
  length m = length (cloud (sP s) (sL s)) -> cloud (sP s) (sL s1) = pick m (cloud (sP s) (sL s)) ->
  (forall j, (j <= n)%nat -> exists s' tr', after uf fill j s tr = Ok (s', tr') /\
     ((j < n)%nat -> Forall (fun q => in_dom (pG (sP s)) (z_x q)) (cloud (sP s) (sL s')) /\ asunder (pG (sP s)) m (cloud (sP s) (sL s')))) ->
  after uf fill n s1 tr1 = Ok (s1', tr1') ->
  exists s' tr', after uf fill n s tr = Ok (s', tr') /\ cloud (sP s) (sL s1') = pick m (cloud (sP s) (sL s')).
Proof.
  intros uf fill n s s1 m tr tr1 S0 S1 s1' tr1' HW HW1 EP EG H0 H1 ER HL HB HI E1.
  assert (K := along uf fill n s tr S0 HW H0). 
  assert (K' : forall j, (j <= n)%nat -> exists s' tr', after uf fill j s tr = Ok (s', tr') /\
     ((j < n)%nat -> Forall (fun q => in_dom (pG (sP s)) (z_x q)) (cloud (sP s) (sL s')))).
  { intros j Hj. destruct (HI j Hj) as (s' & tr' & E & F). exists s', tr'. split; [exact E|]. intros Hn. apply (F Hn). }
  specialize (K K'). clear K'.
  assert (SEP : forall j, (j < n)%nat -> asunder (pG (sP s)) m (z_run uf (s_rho S0) j (sP s) (sG s) (cloud (sP s) (sL s)))).
  { intros j Hj. destruct (K j ltac:(lia)) as (s2 & tr2 & E2 & EB2). destruct (HI j ltac:(lia)) as (s3 & tr3 & E3 & F). rewrite E2 in E3. injection E3 as <- <-. rewrite <- EB2. apply (F Hj). }
  destruct (K n (le_n n)) as (s' & tr' & E & EB). exists s', tr'. split; [exact E|].
  destruct (p_C102_run uf fill n s1 tr1 s1' tr1' S1 HW1 H1) as (_ & EB1); [|exact E1|].
  - intros j Hj. rewrite EP, EG, ER, HB, single_run by (try exact (wh_proper _ HW); try exact HL; intros i Hi; apply SEP; lia).
    destruct (K j ltac:(lia)) as (s2 & tr2 & E2 & EB2). destruct (HI j ltac:(lia)) as (s3 & tr3 & E3 & F). rewrite E2 in E3. injection E3 as <- <-. destruct (F Hj) as [F1 _]. rewrite EB2 in F1.
    rewrite Forall_forall in *. intros q Hq. apply F1. apply pick_in in Hq. exact Hq.
  - rewrite EP, EG, ER, HB in EB1. rewrite EB1, EB. apply single_run; [exact (wh_proper _ HW)|exact HL|exact SEP].
Qed.

(** ** C104 *)
(** A point replaced by points at the same place, in the same state, that share its mass and volume. *)
Definition portion (q : point) (f : R) : point :=
  mkPoint (z_stuff q) (f * z_m q) (f * z_V q) (z_x q) (z_v q) (z_s q) (z_b q) (z_first q).
Fixpoint carve (W : list (list R)) (B : list point) : list point :=
  match W, B with
  | ws :: W, q :: B => map (portion q) ws ++ carve W B
  | _, _ => []
  end.
Definition shares (W : list (list R)) : Prop := Forall (fun ws => Rsum ws = 1 /\ forall r, In r ws -> 0 < r) W.

Section Carve.
  Context (E : ambient) (W : list (list R)) (HW : shares W).
  Lemma carve_sum (f g : point -> R) : (forall q r, 0 < r -> f (portion q r) = r * g q) -> forall B, length W = length B ->
    Rsum (map f (carve W B)) = Rsum (map g B).
  Proof.
    intros H. induction HW as [|ws W' [Hs Hp] HW' IH]; intros [|q B] HL; try discriminate; [reflexivity|].
    cbn [carve]. rewrite map_app, Rsum_app, map_map. cbn [map]. change (Rsum (g q :: map g B)) with (g q + Rsum (map g B)).
    rewrite (IH HW' B) by (injection HL as HL; exact HL). f_equal.
    rewrite (Rsum_ext _ (fun r => g q * r)) by (intros r Hr; rewrite H by (apply Hp; exact Hr); ring). rewrite Rsum_scal, map_id, Hs. ring.
  Qed.
  Lemma carve_map (f g : point -> point) : (forall q r, 0 < r -> f (portion q r) = portion (g q) r) -> forall B, map f (carve W B) = carve W (map g B).
  Proof.
    intros H. induction HW as [|ws W' [Hs Hp] HW' IH]; intros [|q B]; try reflexivity.
    cbn [carve map]. rewrite map_app, map_map, (IH HW'). f_equal. apply map_ext_in. intros r Hr. apply H, Hp, Hr.
  Qed.
  Context (B : list point) (HL : length W = length B).
  Lemma carve_mass k : z_mass E (carve W B) k = z_mass E B k.
  Proof. unfold z_mass. apply carve_sum; [|exact HL]. intros q r _. cbn [portion z_m z_x]. ring. Qed.
  Lemma carve_vel a k : z_vel E (carve W B) a k = z_vel E B a k.
  Proof.
    unfold z_vel. rewrite carve_mass. rewrite (carve_sum _ (fun q => z_m q * comp a (z_v q) * hat (a_P E) (z_x q) k)); [reflexivity| |exact HL].
    intros q r _. cbn [portion z_m z_x z_v]. ring.
  Qed.
  Lemma carve_shed q r : 0 < r -> z_shed E (portion q r) = r * z_shed E q.
  Proof.
    intros Hr. unfold z_shed. cbn [portion z_stuff z_first z_m z_V]. destruct (z_stuff q); try reflexivity.
    destruct (z_first q); [|reflexivity]. destruct (Rlt_dec t0 (a_t E)); [|reflexivity].
    destruct (Rlt_dec (rho * z_V q) (z_m q)) as [HA|HA]; destruct (Rlt_dec (rho * (r * z_V q)) (r * z_m q)) as [HB|HB]; try ring; exfalso.
    - apply HB. replace (rho * (r * z_V q)) with (r * (rho * z_V q)) by ring. apply Rmult_lt_compat_l; assumption.
    - apply HA. apply Rmult_lt_reg_l with r; [exact Hr|]. replace (r * (rho * z_V q)) with (rho * (r * z_V q)) by ring. exact HB.
  Qed.
  Lemma carve_strained q r : 0 < r -> z_strained E (carve W B) (portion q r) = portion (z_strained E B q) r.
  Proof.
    intros Hr. assert (D : z_strain E (carve W B) (portion q r) = z_strain E B q).
    { unfold z_strain, m3. f_equal; f_equal; apply fsum_ext; intros k _; rewrite !carve_vel; reflexivity. }
    unfold z_strained. rewrite D, (carve_shed q r Hr). reflexivity.
  Qed.
  Lemma carve_acc a k : z_acc E (carve W B) (map (z_strained E (carve W B)) (carve W B)) a k = z_acc E B (map (z_strained E B) B) a k.
  Proof.
    unfold z_acc. rewrite carve_mass. rewrite (carve_map _ _ carve_strained). unfold z_force.
    rewrite (carve_sum _ (fun q => z_m q * comp a (z_b q) * hat (a_P E) (z_x q) k - z_V q * over (fun b => el a b (z_s q) * ghat (a_P E) (z_x q) b k))); [reflexivity| |].
    - intros q r _. cbn [portion z_m z_x z_b z_V z_s]. unfold over. ring.
    - rewrite map_length. exact HL.
  Qed.
  Lemma carve_end a k : z_end E (carve W B) (map (z_strained E (carve W B)) (carve W B)) a k = z_end E B (map (z_strained E B) B) a k.
  Proof. unfold z_end. rewrite carve_mass, carve_vel, carve_acc. reflexivity. Qed.
  Lemma carve_dense x f : z_dense E (carve W B) x f = z_dense E B x f.
  Proof.
    unfold z_dense. assert (K : fsum (a_nodes E) (fun k => hat (a_P E) x k * z_rho E (carve W B) k) = fsum (a_nodes E) (fun k => hat (a_P E) x k * z_rho E B k)).
    { apply fsum_ext. intros k _. unfold z_rho. rewrite carve_mass. reflexivity. }
    rewrite K. reflexivity.
  Qed.
  Lemma carve_step : z_step E (carve W B) = carve W (z_step E B).
  Proof.
    unfold z_step. rewrite (carve_map _ (z_strained E B) carve_strained). apply carve_map. intros q r Hr.
    rewrite <- (carve_map _ _ carve_strained B).
    assert (K1 : forall a, fsum (a_nodes E) (fun k => hat (a_P E) (z_x q) k * z_end E (carve W B) (map (z_strained E (carve W B)) (carve W B)) a k)
      = fsum (a_nodes E) (fun k => hat (a_P E) (z_x q) k * z_end E B (map (z_strained E B) B) a k)).
    { intros a. apply fsum_ext. intros k _. rewrite carve_end. reflexivity. }
    assert (K2 : forall a, fsum (a_nodes E) (fun k => hat (a_P E) (z_x q) k * z_acc E (carve W B) (map (z_strained E (carve W B)) (carve W B)) a k)
      = fsum (a_nodes E) (fun k => hat (a_P E) (z_x q) k * z_acc E B (map (z_strained E B) B) a k)).
    { intros a. apply fsum_ext. intros k _. rewrite carve_acc. reflexivity. }
    unfold z_moved, v3. change (z_x (portion q r)) with (z_x q). change (z_stuff (portion q r)) with (z_stuff q). rewrite !K1, !K2, carve_dense.
    destruct (z_stuff q); reflexivity.
  Qed.
End Carve.

Lemma carve_run uf rho W : shares W -> forall n (P : params R) G B, length W = length B ->
  z_run uf rho n P G (carve W B) = carve W (z_run uf rho n P G B).
Proof.
  intros HW. induction n as [|n IH]; intros P G B HL; [reflexivity|]. cbn [z_run]. rewrite carve_step by assumption. apply IH. rewrite z_step_length. exact HL.
Qed.
Lemma carve_in : forall W B q, In q (carve W B) -> exists q0 r, In q0 B /\ q = portion q0 r.
Proof.
  induction W as [|ws W IH]; intros [|q0 B] q H; try contradiction. cbn [carve] in H. apply in_app_iff in H as [H|H].
  - apply in_map_iff in H as (r & <- & _). exists q0, r. split; [left; reflexivity|reflexivity].
  - destruct (IH B q H) as (q1 & r & A & ->). exists q1, r. split; [right; exact A|reflexivity].
Qed.

(** Whatever the materials, a point may be replaced by any number of points at the same place and in the same state that
    share its mass and volume: every pass gives all of them the place, velocity, stress and memory of the point they
    replace, and their share of its mass. *)
Lemma p_C104_parts : forall uf fill n (s s1 : state R) W tr tr1 S0 S1 s1' tr1', whole s -> whole s1 -> sP s1 = sP s -> sG s1 = sG s ->
  sol0 (sL s) = Ok S0 -> sol0 (sL s1) = Ok S1 -> s_rho S1 = s_rho S0 -> shares W ->
  length W = length (cloud (sP s) (sL s)) -> cloud (sP s) (sL s1) = carve W (cloud (sP s) (sL s)) ->
  (forall j, (j <= n)%nat -> exists s' tr', after uf fill j s tr = Ok (s', tr') /\
     ((j < n)%nat -> Forall (fun q => in_dom (pG (sP s)) (z_x q)) (cloud (sP s) (sL s')))) ->
  after uf fill n s1 tr1 = Ok (s1', tr1') ->
  exists s' tr', after uf fill n s tr = Ok (s', tr') /\ cloud (sP s) (sL s1') = carve W (cloud (sP s) (sL s')).
Proof.
  intros uf fill n s s1 W tr tr1 S0 S1 s1' tr1' HW HW1 EP EG H0 H1 ER HS HL HB HI E1.
  assert (K := along uf fill n s tr S0 HW H0 HI).
  destruct (K n (le_n n)) as (s' & tr' & E & EB). exists s', tr'. split; [exact E|].
  destruct (p_C102_run uf fill n s1 tr1 s1' tr1' S1 HW1 H1) as (_ & EB1); [|exact E1|].
  - intros j Hj. rewrite EP, EG, ER, HB, carve_run by assumption.
    destruct (K j ltac:(lia)) as (s2 & tr2 & E2 & EB2). destruct (HI j ltac:(lia)) as (s3 & tr3 & E3 & F). rewrite E2 in E3. injection E3 as <- <-. specialize (F Hj). rewrite EB2 in F.
    rewrite Forall_forall in *. intros q Hq. apply carve_in in Hq as (q0 & r & A & ->). apply (F q0 A).
  - rewrite EP, EG, ER, HB in EB1. rewrite EB1, EB. apply carve_run; assumption.
Qed.

(** The examples: a body of Bingham's fluid far from a Von Mises body; grains of two phases, some of them cut. *)
Definition sole (G : grid R) (L : list (phase R)) : state R := mkState mix_params G L.
Lemma sole_whole G L : grid_ok ex_gridp G -> covered L -> own_velocities L -> L <> [] -> whole (sole G L).
Proof.
  intros OK C V N. constructor; try reflexivity; try (cbn; unR; lra); try assumption.
  - exact ex_proper.
  - repeat split; reflexivity.
  - left. reflexivity.
Qed.
Lemma sole_provided G L S0 : counted L -> sol0 L = Ok S0 -> (forall ph, In ph L -> exists l, ph_sol ph = mix_solid l /\ equipped S0 (mix_solid l)) -> provided (sole G L).
Proof.
  intros C H0 H. constructor; try reflexivity; try (cbn; unfold lit; unR; lra).
  - exact C.
  - exists S0. split; [exact H0|]. intros ph Hp. destruct (H ph Hp) as (l & E & Q). cbn [sL sole] in Hp. rewrite E. exact Q.
  - intros ph _ _. discriminate.
  - intros _. discriminate.
Qed.
Lemma mix_equipped l : In l [Rigid; Elastic; ElasticTime; VonMises; Bingham; KenKamrin] -> forall l0, equipped (mix_solid l0) (mix_solid l).
Proof. intros [<-|[<-|[<-|[<-|[<-|[<-|[]]]]]]] l0; unfold equipped; cbn [s_law ph_sol mix_phase mix_solid]; unfold scalar_attr, has; cbn; repeat split; try discriminate; eexists; reflexivity. Qed.

(** A Bingham body and a Von Mises body two cells apart, under a load and above a belt. *)
Example x_C103_alone : forall fill, exists (s s1 : state R) m S0, whole s /\ whole s1 /\ sP s1 = sP s /\ sG s1 = sG s /\
  sol0 (sL s) = Ok S0 /\ sol0 (sL s1) = Ok S0 /\
  length m = length (cloud (sP s) (sL s)) /\ cloud (sP s) (sL s1) = pick m (cloud (sP s) (sL s)) /\
  (length (cloud (sP s) (sL s)) = 2 /\ length (cloud (sP s) (sL s1)) = 1)%nat /\
  (forall j, (j <= 1)%nat -> exists s' tr', after mix_loads fill j s [] = Ok (s', tr') /\
     ((j < 1)%nat -> Forall (fun q => in_dom (pG (sP s)) (z_x q)) (cloud (sP s) (sL s')) /\ asunder (pG (sP s)) m (cloud (sP s) (sL s')))) /\
  exists s' tr' s1' tr1', after mix_loads fill 1 s1 [] = Ok (s1', tr1') /\ after mix_loads fill 1 s [] = Ok (s', tr') /\
     cloud (sP s) (sL s1') = pick m (cloud (sP s) (sL s')).
Proof.
  intros fill. destruct (grid_init_ok ex_gridp mix_bounds ex_proper) as (G & EG & OK).
  set (s := sole G [mix_phase Bingham (1/4); mix_phase VonMises (9/4)]). set (s1 := sole G [mix_phase Bingham (1/4)]).
  assert (W : whole s).
  { apply sole_whole; [exact OK| | |discriminate].
    - intros ph [<-|[<-|[]]]; cbn [s_law ph_sol mix_phase mix_solid]; try exact I; intros p [<-|[]]; reflexivity.
    - intros ph p [<-|[<-|[]]] [<-|[]]; eexists; reflexivity. }
  assert (W1 : whole s1).
  { apply sole_whole; [exact OK| | |discriminate].
    - intros ph [<-|[]]; cbn [s_law ph_sol mix_phase mix_solid]; try exact I; intros p [<-|[]]; reflexivity.
    - intros ph p [<-|[]] [<-|[]]; eexists; reflexivity. }
  assert (V : provided s).
  { apply sole_provided with (mix_solid Bingham); [intros ph [<-|[<-|[]]]; reflexivity|reflexivity|].
    intros ph [<-|[<-|[]]]; eexists; (split; [reflexivity|]); apply mix_equipped; cbn; tauto. }
  assert (V1 : provided s1).
  { apply sole_provided with (mix_solid Bingham); [intros ph [<-|[]]; reflexivity|reflexivity|].
    intros ph [<-|[]]; eexists; (split; [reflexivity|]); apply mix_equipped; cbn; tauto. }
  assert (D : Forall (fun q => in_dom (pG (sP s)) (z_x q) /\ (p_check (sP s) = true -> vz (z_x q) = 0)) (cloud (sP s) (sL s))) by (repeat constructor; cbn; unR; lra).
  assert (D1 : Forall (fun q => in_dom (pG (sP s1)) (z_x q) /\ (p_check (sP s1) = true -> vz (z_x q) = 0)) (cloud (sP s1) (sL s1))) by (repeat constructor; cbn; unR; lra).
  destruct (p_C102_total mix_loads fill 1 s [] (mix_solid Bingham) W V eq_refl) as (s' & tr' & E & _); [intros [|j] Hj; [exact D|lia]|].
  destruct (p_C102_total mix_loads fill 1 s1 [] (mix_solid Bingham) W1 V1 eq_refl) as (s1' & tr1' & E1 & _); [intros [|j] Hj; [exact D1|lia]|].
  assert (H : forall j, (j <= 1)%nat -> exists s' tr', after mix_loads fill j s [] = Ok (s', tr') /\
     ((j < 1)%nat -> Forall (fun q => in_dom (pG (sP s)) (z_x q)) (cloud (sP s) (sL s')) /\ asunder (pG (sP s)) [true; false] (cloud (sP s) (sL s')))).
  { intros [|[|j]] Hj; [| |lia].
    - exists s, []. split; [reflexivity|]. intros _. split; [apply (Forall_impl _ (fun q X => proj1 X) D)|].
      intros q r [<-|[]] [<-|[]]. left. unfold cell_w. cbn. rewrite Rabs_left; lra.
    - exists s', tr'. split; [exact E|]. lia. }
  exists s, s1, [true; false], (mix_solid Bingham). do 9 (split; [first [assumption|reflexivity|split; reflexivity]|]). split; [exact H|].
  destruct (p_C103_alone mix_loads fill 1 s s1 [true; false] [] [] (mix_solid Bingham) (mix_solid Bingham) s1' tr1' W W1 eq_refl eq_refl eq_refl eq_refl eq_refl eq_refl eq_refl H E1)
    as (s2 & tr2 & E2 & EB). exists s2, tr2, s1', tr1'. auto.
Qed.

(** An intruder and grains in a box with a load and a belt; the point of the grains is cut in two. *)
Example x_C104_parts : forall fill, exists (s s1 : state R) W S0, whole s /\ whole s1 /\ sP s1 = sP s /\ sG s1 = sG s /\
  sol0 (sL s) = Ok S0 /\ sol0 (sL s1) = Ok S0 /\ shares W /\
  length W = length (cloud (sP s) (sL s)) /\ cloud (sP s) (sL s1) = carve W (cloud (sP s) (sL s)) /\
  (length (cloud (sP s) (sL s)) = 2 /\ length (cloud (sP s) (sL s1)) = 3)%nat /\
  (forall j, (j <= 1)%nat -> exists s' tr', after mix_loads fill j s [] = Ok (s', tr') /\
     ((j < 1)%nat -> Forall (fun q => in_dom (pG (sP s)) (z_x q)) (cloud (sP s) (sL s')))) /\
  exists s' tr' s1' tr1', after mix_loads fill 1 s1 [] = Ok (s1', tr1') /\ after mix_loads fill 1 s [] = Ok (s', tr') /\
     cloud (sP s) (sL s1') = carve W (cloud (sP s) (sL s')).
Proof.
  intros fill. destruct (grid_init_ok ex_gridp mix_bounds ex_proper) as (G & EG & OK).
  set (p0 := ex_particle (9/4) (1/2) (mkV3 1 0 0) ex_stress : particle R).
  set (L1 := [mix_phase Rigid (1/4); mkPhase (mix_solid KenKamrin) 2 v0 [p0 <| pm := 1/4 * 2 |> <| pV := 1/4 * 1 |>; p0 <| pm := 3/4 * 2 |> <| pV := 3/4 * 1 |>]]).
  set (s := sole G [mix_phase Rigid (1/4); mix_phase KenKamrin (9/4)]). set (s1 := sole G L1).
  assert (W : whole s).
  { apply sole_whole; [exact OK| | |discriminate].
    - intros ph [<-|[<-|[]]]; cbn [s_law ph_sol mix_phase mix_solid]; try exact I; intros p [<-|[]]; reflexivity.
    - intros ph p [<-|[<-|[]]] [<-|[]]; eexists; reflexivity. }
  assert (W1 : whole s1).
  { apply sole_whole; [exact OK| | |discriminate].
    - intros ph [<-|[<-|[]]]; cbn [s_law ph_sol mix_phase mix_solid]; try exact I; intros p [<-|[]]; reflexivity.
    - intros ph p [<-|[<-|[]]] Hp; cbn in Hp; destruct Hp as [<-|Hp]; try (destruct Hp as [<-|[]]); try contradiction; eexists; reflexivity. }
  assert (V : provided s).
  { apply sole_provided with (mix_solid Rigid); [intros ph [<-|[<-|[]]]; reflexivity|reflexivity|].
    intros ph [<-|[<-|[]]]; eexists; (split; [reflexivity|]); apply mix_equipped; cbn; tauto. }
  assert (V1 : provided s1).
  { apply sole_provided with (mix_solid Rigid); [intros ph [<-|[<-|[]]]; reflexivity|reflexivity|].
    intros ph [<-|[<-|[]]]; eexists; (split; [reflexivity|]); apply mix_equipped; cbn; tauto. }
  assert (D : Forall (fun q => in_dom (pG (sP s)) (z_x q) /\ (p_check (sP s) = true -> vz (z_x q) = 0)) (cloud (sP s) (sL s))) by (repeat constructor; cbn; unR; lra).
  assert (D1 : Forall (fun q => in_dom (pG (sP s1)) (z_x q) /\ (p_check (sP s1) = true -> vz (z_x q) = 0)) (cloud (sP s1) (sL s1))) by (repeat constructor; cbn; unR; lra).
  destruct (p_C102_total mix_loads fill 1 s [] (mix_solid Rigid) W V eq_refl) as (s' & tr' & E & _); [intros [|j] Hj; [exact D|lia]|].
  destruct (p_C102_total mix_loads fill 1 s1 [] (mix_solid Rigid) W1 V1 eq_refl) as (s1' & tr1' & E1 & _); [intros [|j] Hj; [exact D1|lia]|].
  assert (H : forall j, (j <= 1)%nat -> exists s' tr', after mix_loads fill j s [] = Ok (s', tr') /\
     ((j < 1)%nat -> Forall (fun q => in_dom (pG (sP s)) (z_x q)) (cloud (sP s) (sL s')))).
  { intros [|[|j]] Hj; [| |lia].
    - exists s, []. split; [reflexivity|]. intros _. apply (Forall_impl _ (fun q X => proj1 X) D).
    - exists s', tr'. split; [exact E|]. lia. }
  assert (HS : shares [[1]; [1/4; 3/4]]).
  { constructor; [split; [cbn; lra|intros r [<-|[]]; lra]|]. constructor; [split; [cbn; lra|intros r [<-|[<-|[]]]; lra]|constructor]. }
  assert (EC : cloud (sP s) (sL s1) = carve [[1]; [1/4; 3/4]] (cloud (sP s) (sL s))).
  { cbn. unfold point_of, portion. cbn. repeat f_equal; unfold n2; unR; lra. }
  exists s, s1, [[1]; [1/4; 3/4]], (mix_solid Rigid). do 10 (split; [first [assumption|reflexivity|split; reflexivity]|]). split; [exact H|].
  destruct (p_C104_parts mix_loads fill 1 s s1 [[1]; [1/4; 3/4]] [] [] (mix_solid Rigid) (mix_solid Rigid) s1' tr1' W W1 eq_refl eq_refl eq_refl eq_refl eq_refl HS eq_refl EC H E1)
    as (s2 & tr2 & E2 & EB). exists s2, tr2, s1', tr1'. auto.
Qed.

(** ** C105 *)
(** The place of a point that moves with velocity [w] for [n] steps. *)
Definition carried (w : V3 R) (dt : R) (n : nat) (x : V3 R) : V3 R := v3 (fun a => comp a x + INR n * (dt * comp a w)).
Lemma v3_eq (x y : V3 R) : (forall a, comp a x = comp a y) -> x = y.
Proof. intros H. pose proof (H AX). pose proof (H AY). pose proof (H AZ). destruct x, y. cbn in *. congruence. Qed.
Lemma comp_carried w dt n x a : comp a (carried w dt n x) = comp a x + INR n * (dt * comp a w).
Proof. destruct a; reflexivity. Qed.
Lemma intruder_run uf rho w : forall n (P : params R) G B i q, p_intruder_v P = Some w -> nth_error B i = Some q -> z_stuff q = Intruder ->
  exists q', nth_error (z_run uf rho n P G B) i = Some q' /\ z_stuff q' = Intruder /\ z_m q' = z_m q /\ z_V q' = z_V q /\ z_x q' = carried w (p_dt P) n (z_x q) /\
    (n <> 0%nat -> z_v q' = w).
Proof.
  induction n as [|n IH]; intros P G B i q HP HB HQ.
  - exists q. split; [exact HB|]. split; [exact HQ|]. split; [reflexivity|]. split; [reflexivity|]. split; [|congruence].
    apply v3_eq. intros a. rewrite comp_carried. cbn [INR]. ring.
  - cbn [z_run]. set (E := ambient_of P rho (uf P) G).
    assert (EW : a_w E = w) by (unfold E, ambient_of; cbn [a_w]; rewrite HP; reflexivity).
    set (q1 := mkPoint Intruder (z_m q) (z_V q) (v3 (fun a => comp a (z_x q) + a_dt E * comp a (a_w E))) (a_w E) (z_stress E q (z_strain E B q)) (if z_first q then a_g E else z_b q) (z_first q)).
    assert (B1 : nth_error (z_step E B) i = Some q1).
    { unfold z_step. rewrite !nth_error_map, HB. cbn [option_map]. f_equal. unfold z_moved.
      assert (M : z_stuff (z_strained E B q) = Intruder) by (unfold z_strained; cbn [z_stuff]; rewrite HQ; reflexivity). rewrite M.
      unfold q1, z_strained. cbn [z_m z_V z_x z_s z_b z_first]. unfold z_shed. rewrite HQ. reflexivity. }
    destruct (IH (ticked uf P) G (z_step E B) i q1 HP B1 eq_refl) as (q' & A1 & A2 & A3 & A4 & A5 & A6).
    exists q'. split; [exact A1|]. split; [exact A2|]. split; [exact A3|]. split; [exact A4|]. split.
    + rewrite A5. apply v3_eq. intros a. rewrite !comp_carried, S_INR. unfold q1. cbn [z_x]. change (p_dt (ticked uf P)) with (p_dt P). change (a_dt E) with (p_dt P). rewrite EW.
      destruct a; cbn [comp v3 vx vy vz]; ring.
    + intros _. destruct n as [|n]; [|apply A6; discriminate]. cbn [z_run] in A1. rewrite B1 in A1. injection A1 as <-. exact EW.
Qed.

(** Whatever it meets, an intruder moves on a straight line with the velocity given in the input: after any number of
    passes its points have moved by that many time steps times the velocity, and keep their mass and volume. *)
Lemma p_C105_path : forall uf fill n (s : state R) tr s' tr' S0 w i q, whole s -> sol0 (sL s) = Ok S0 -> p_intruder_v (sP s) = Some w ->
  nth_error (cloud (sP s) (sL s)) i = Some q -> z_stuff q = Intruder ->
  (forall j, (j <= n)%nat -> exists s' tr', after uf fill j s tr = Ok (s', tr') /\
     ((j < n)%nat -> Forall (fun q => in_dom (pG (sP s)) (z_x q)) (cloud (sP s) (sL s')))) ->
  after uf fill n s tr = Ok (s', tr') ->
  exists q', nth_error (cloud (sP s) (sL s')) i = Some q' /\ z_stuff q' = Intruder /\ z_m q' = z_m q /\ z_V q' = z_V q /\ z_x q' = carried w (p_dt (sP s)) n (z_x q) /\
    (n <> 0%nat -> z_v q' = w).
Proof.
  intros uf fill n s tr s' tr' S0 w i q HW H0 HP HB HQ HI E.
  destruct (along uf fill n s tr S0 HW H0 HI n (le_n n)) as (s2 & tr2 & E2 & EB). rewrite E in E2. injection E2 as <- <-.
  rewrite EB. apply intruder_run; assumption.
Qed.

(** The intruder among the five materials. *)
Example x_C105_path : forall fill, exists (s : state R) S0 q, whole s /\ sol0 (sL s) = Ok S0 /\ p_intruder_v (sP s) = Some (mkV3 0 (-1) 0) /\
  nth_error (cloud (sP s) (sL s)) 2 = Some q /\ z_stuff q = Intruder /\
  (forall j, (j <= 1)%nat -> exists s' tr', after mix_loads fill j s [] = Ok (s', tr') /\
     ((j < 1)%nat -> Forall (fun q => in_dom (pG (sP s)) (z_x q)) (cloud (sP s) (sL s')))) /\
  exists s' tr' q', after mix_loads fill 1 s [] = Ok (s', tr') /\ nth_error (cloud (sP s) (sL s')) 2 = Some q' /\
    z_x q' = carried (mkV3 0 (-1) 0) (p_dt (sP s)) 1 (z_x q).
Proof.
  intros fill. destruct (grid_init_ok ex_gridp mix_bounds ex_proper) as (G & EG & OK).
  set (s := mix_state G). assert (W : whole s) by (apply mix_whole; exact OK). assert (V : provided s) by apply mix_provided.
  assert (D : Forall (fun q => in_dom (pG (sP s)) (z_x q) /\ (p_check (sP s) = true -> vz (z_x q) = 0)) (cloud (sP s) (sL s))) by (repeat constructor; cbn; unR; lra).
  destruct (p_C102_total mix_loads fill 1 s [] (mix_solid ElasticTime) W V eq_refl) as (s' & tr' & E & _); [intros [|j] Hj; [exact D|lia]|].
  assert (H : forall j, (j <= 1)%nat -> exists s' tr', after mix_loads fill j s [] = Ok (s', tr') /\
     ((j < 1)%nat -> Forall (fun q => in_dom (pG (sP s)) (z_x q)) (cloud (sP s) (sL s')))).
  { intros [|[|j]] Hj; [| |lia].
    - exists s, []. split; [reflexivity|]. intros _. apply (Forall_impl _ (fun q X => proj1 X) D).
    - exists s', tr'. split; [exact E|]. lia. }
  eexists s, (mix_solid ElasticTime), _. do 5 (split; [first [assumption|reflexivity]|]). split; [exact H|].
  destruct (p_C105_path mix_loads fill 1 s [] s' tr' (mix_solid ElasticTime) (mkV3 0 (-1) 0) 2 _ W eq_refl eq_refl eq_refl eq_refl H E) as (q' & A1 & _ & _ & _ & A2 & _).
  exists s', tr', q'. split; [exact E|]. split; [exact A1|exact A2].
Qed.
