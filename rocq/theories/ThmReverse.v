(** * Running backwards: C146. *)
From Coq Require Import ZArith Reals List Bool Arith Lra Lia.
From RecordUpdate Require Import RecordUpdate.
From Verif Require Import State NumR Spec SpecLaws SpecStep SpecScheme SpecView LibList LibR ModelGrid ModelConstit ModelParticle ModelMPList
  ModelIntegr ModelMain ProofsGrid ProofsMap ProofsP2G ProofsWalls ProofsLaws ProofsInOut ProofsHist Concrete
  ThmMapping ThmWalls ThmLaws ThmInOut ThmHist ProofsStep ProofsPoints ThmStep ThmBalance ThmEnergy ThmFall ThmGeo ProofsScheme ProofsView ThmScheme ThmView ThmSpin ThmAngular ThmBeat ThmObserver ThmSilent ThmCells ThmMerge.
Import ListNotations.
Local Open Scope R_scope.

(** What a point does when its motion is turned round. *)
Definition turned (q : mp) : mp := mkMp (q_mat q) (q_m q) (q_V q) (q_x q) (v3 (fun a => - comp a (q_v q))) (q_s q) (q_p q) (q_b q) (q_first q).
(** Two points without stiffness on either side of the middle of a cell, that approach each other with speed [v]. *)
Definition duel (r v : R) : list (phase R) :=
  [mkPhase (stuff 0 0) 2 v0 [ex_particle (1/2 - r) (1/2) (mkV3 v 0 0) m0; ex_particle (1/2 + r) (1/2) (mkV3 (- v) 0 0) m0]].
Definition duel_state (G : grid R) (h r v : R) : state R := mkState (ex_params ex_bounds <| p_dt := h |>) G (duel r v).
(** How the half distance changes in one step, and in [n] steps. *)
Definition closer (h v r : R) : R := r - 4 * h * v * (r * r).
Fixpoint closing (h v : R) (n : nat) (r : R) : R := match n with O => r | S m => closer h v (closing h v m r) end.

Lemma duel_plain G h r v : grid_ok ex_gridp G -> plain (duel_state G h r v).
Proof.
  intros OK. constructor; try assumption; try reflexivity; try (cbn; lra).
  - exact ex_proper.
  - intros ph [<-|[]]. reflexivity.
  - intros ph [<-|[]]. left. reflexivity.
  - eexists. split; [reflexivity|]. intros ph [<-|[]]. unfold equipped, has. cbn. split; discriminate.
  - intros ph p [<-|[]] [<-|[<-|[]]]; eexists; reflexivity.
  - repeat split; reflexivity.
  - left; reflexivity.
Qed.
Lemma duel_inside r v : - (1/2) < r < 1/2 -> Forall (fun q => in_dom (ex_gridp (T := R)) (q_x q) /\ (p_check (ex_params (T := R) ex_bounds) = true -> vz (q_x q) = 0)) (bodies (duel r v)).
Proof. intros Hr. repeat constructor; cbn; try (unR; lra); try reflexivity. Qed.
Lemma duel_step E r v : e_P E = ex_gridp -> e_tol E = 1/1000 -> e_g E = v0 -> (forall a k, e_open E a k = 1) -> - (1/2) < r < 1/2 ->
  t_step E (bodies (duel r v)) = bodies (duel (closer (e_dt E) v r) v).
Proof.
  intros EP ET EG0 HO Hr. set (B := bodies (duel r v)).
  assert (M : forall k, (k < 12)%nat -> t_mass E B k = nth k [1; 1; 0; 0; 1; 1; 0; 0; 0; 0; 0; 0] 0).
  { intros k Hk. unfold t_mass. rewrite EP. cbn - [nth hat]. rewrite (hat_d (1/2 - r) k), (hat_d (1/2 + r) k) by (assumption || lra). do 12 (destruct k as [|k]; [cbn; unR; lra|]). lia. }
  assert (VX : forall k, (k < 12)%nat -> t_vel E B AX k = nth k [2 * r * v; - 2 * r * v; 0; 0; 2 * r * v; - 2 * r * v; 0; 0; 0; 0; 0; 0] 0).
  { intros k Hk. unfold t_vel. rewrite (M k Hk), HO, ET, EP. cbn - [nth hat]. rewrite (hat_d (1/2 - r) k), (hat_d (1/2 + r) k) by (assumption || lra). do 12 (destruct k as [|k]; [cbn; unR; destruct (Rlt_dec _ _); try lra; field|]). lia. }
  assert (VO : forall a k, a <> AX -> (k < 12)%nat -> t_vel E B a k = 0).
  { intros a k Ha Hk. unfold t_vel. destruct (Rlt_dec _ _); [|reflexivity]. destruct a; [destruct (Ha eq_refl)| |]; cbn - [nth hat]; unR; unfold Rdiv; ring. }
  assert (ST : forall q d, In q B -> t_stress E q d = m0).
  { intros q d Hq. assert (Q : q_s q = m0 /\ q_mat q = Solid 0 0) by (destruct Hq as [<-|[<-|[]]]; split; reflexivity). destruct Q as [Q1 Q2].
    apply ThmLaws.m3_ext; unfold t_stress, t_material, over, m3, tr3; rewrite Q1, Q2; cbn; unR; field. }
  assert (EB1 : map (t_strained E B) B = B).
  { rewrite <- (map_id B) at 3. apply map_ext_in. intros q Hq. unfold t_strained. rewrite (ST q _ Hq), EG0. destruct Hq as [<-|[<-|[]]]; unfold t_pressure, mp_of; cbn; unfold tr3; cbn; f_equal; unR; field. }
  assert (FO : forall a k, t_force E B a k = 0).
  { intros a k. unfold t_force. apply Rsum_zero. intros q Hq. assert (Q : q_s q = m0 /\ q_b q = v0) by (destruct Hq as [<-|[<-|[]]]; split; reflexivity). destruct Q as [-> ->]. unfold over. destruct a; cbn - [hat ghat]; unR; ring. }
  assert (AC : forall a k, t_acc E B B a k = 0).
  { intros a k. unfold t_acc. rewrite (FO a k). destruct (Rlt_dec _ _); [unfold Rdiv; ring|reflexivity]. }
  assert (AZ0 : forall z a, fsum (e_nodes E) (fun k => hat (e_P E) z k * t_acc E B B a k) = 0).
  { intros z a. apply fsum_zero. intros k _. rewrite AC. ring. }
  assert (NE : e_nodes E = 12%nat) by (unfold e_nodes; rewrite EP; reflexivity).
  assert (SO : forall z a, a <> AX -> fsum (e_nodes E) (fun k => hat (e_P E) z k * (t_vel E B a k + e_dt E * t_acc E B B a k)) = 0).
  { intros z a Ha. apply fsum_zero. rewrite NE. intros k Hk. rewrite AC, VO by assumption. ring. }
  assert (SX : forall c, 0 <= c < 1 -> fsum (e_nodes E) (fun k => hat (e_P E) (mkV3 c (1/2) 0) k * (t_vel E B AX k + e_dt E * t_acc E B B AX k)) = 2 * r * v * (1 - 2 * c)).
  { intros c Hc. rewrite NE, EP. rewrite (fsum_ext 12 _ (fun k => nth k [(1 - c)/2; c/2; 0; 0; (1 - c)/2; c/2; 0; 0; 0; 0; 0; 0] 0 * nth k [2 * r * v; - 2 * r * v; 0; 0; 2 * r * v; - 2 * r * v; 0; 0; 0; 0; 0; 0] 0)); [cbn; field|].
    intros k Hk. rewrite AC, (VX k Hk), (hat_d c k Hc Hk). ring. }
  unfold t_step. rewrite EB1.
  transitivity (map (fun q => mkMp (q_mat q) (q_m q) (q_V q) (mkV3 (vx (q_x q) + e_dt E * (2 * r * v * (1 - 2 * vx (q_x q)))) (vy (q_x q)) (vz (q_x q))) (q_v q) (q_s q) (q_p q) (q_b q) (q_first q)) B).
  - apply map_ext_in. intros q Hq. assert (Q : exists c, 0 <= c < 1 /\ q_x q = mkV3 c (1/2) 0) by (destruct Hq as [<-|[<-|[]]]; eexists; (split; [|reflexivity]); lra). destruct Q as (c & Hc & Q).
    unfold t_moved, v3. rewrite Q, (SX c Hc), !SO, !AZ0 by discriminate. cbn [comp vx vy vz]. f_equal; [f_equal; ring|]. destruct (q_v q). cbn. f_equal; ring.
  - subst B. cbn. unfold mp_of, closer. cbn.
    replace (1/2 - r + e_dt E * (2 * r * v * (1 - 2 * (1/2 - r)))) with (1/2 - (r - 4 * e_dt E * v * (r * r))) by field.
    replace (1/2 + r + e_dt E * (2 * r * v * (1 - 2 * (1/2 + r)))) with (1/2 + (r - 4 * e_dt E * v * (r * r))) by field. reflexivity.
Qed.
Lemma closing_range h v n r : 0 < r < 1/2 -> 0 <= h * v -> 4 * (h * v) * r < 1 -> 0 < closing h v n r <= r.
Proof.
  intros Hr H0 H1. induction n as [|n IH]; cbn [closing]; [lra|]. unfold closer. set (q := closing h v n r) in *. clearbody q.
  assert (4 * (h * v) * q <= 4 * (h * v) * r) by (apply Rmult_le_compat_l; lra). replace (q - 4 * h * v * (q * q)) with (q * (1 - 4 * (h * v) * q)) by ring. split; [apply Rmult_lt_0_compat; lra|]. assert (0 <= 4 * (h * v) * q) by nra. nra.
Qed.
Lemma duel_run G h v r n : wall_free (bv G) (bh G) -> (forall k, (k < n)%nat -> - (1/2) < closing h v k r < 1/2) ->
  t_run calm n (ex_params ex_bounds <| p_dt := h |>) G (bodies (duel r v)) = bodies (duel (closing h v n r) v).
Proof.
  intros HW. induction n as [|n IH]; intros HR; [reflexivity|]. rewrite t_run_S, IH by (intros k Hk; apply HR; lia). cbn [closing].
  set (P := ex_params ex_bounds <| p_dt := h |>) in *. destruct (clock_grid calm n P) as (E1 & E2 & E3 & E4 & E5 & E6).
  etransitivity; [apply duel_step|].
  - exact E1.
  - transitivity (p_Mtol P); [unfold scheme_at, scheme_of; cbn [e_tol]; congruence|reflexivity].
  - unfold scheme_at, calm. cbn [scheme_of e_g ld_g ld_theta]. rewrite !Rmult_0_l. reflexivity.
  - intros. apply free_open, HW.
  - apply HR. lia.
  - f_equal. f_equal. f_equal. exact E3.
Qed.
(** ** C146 *)
(** Two points that approach each other, after any number of steps: they keep their
    velocities for ever, and never meet. *)
Lemma p_C146_never : forall fill h v r, 0 < r < 1/2 -> 0 < h * v -> 4 * (h * v) * r < 1 -> exists s : state R, plain s /\ p_dt (sP s) = h /\
  map spot (bodies (sL s)) = [(1/2 - r, 1/2); (1/2 + r, 1/2)] /\ map q_v (bodies (sL s)) = [mkV3 v 0 0; mkV3 (- v) 0 0] /\
  forall n, exists s' tr u, after calm fill n s [] = Ok (s', tr) /\ 0 < u <= r /\ map spot (bodies (sL s')) = [(1/2 - u, 1/2); (1/2 + u, 1/2)] /\ map q_v (bodies (sL s')) = map q_v (bodies (sL s)).
Proof.
  intros fill h v r Hr H0 H1. destruct (grid_init_ok ex_gridp ex_bounds ex_proper) as (G & EG & OK). pose proof (no_walls G EG OK) as HW.
  exists (duel_state G h r v). split; [apply duel_plain, OK|]. split; [reflexivity|]. split; [reflexivity|]. split; [reflexivity|]. intros n.
  assert (RG : forall k, - (1/2) < closing h v k r < 1/2) by (intros k; pose proof (closing_range h v k r Hr ltac:(lra) H1); lra).
  destruct (p_C84_run calm fill n (duel_state G h r v) [] (duel_plain G h r v OK)) as (s' & tr & E & _ & EB); [intros P; split; discriminate| |].
  - intros k Hk. cbn [duel_state sP sG sL]. rewrite (duel_run G h v r k HW) by (intros; apply RG). exact (duel_inside _ v (RG k)).
  - exists s', tr, (closing h v n r). split; [exact E|]. split; [apply closing_range; lra|]. rewrite EB. cbn [duel_state sP sG sL]. rewrite (duel_run G h v r n HW) by (intros; apply RG). split; reflexivity.
Qed.
(** Turn the points round after any number of steps, and make as many steps: they end
    closer to each other than they were at the start. *)
Lemma p_C146_back_refuted : forall fill h v r n, 0 < r < 1/2 -> 0 < h * v -> 4 * (h * v) * r < 1 -> (0 < n)%nat -> exists (s s' t t' : state R) tr tr' u, plain s /\ p_dt (sP s) = h /\
  map spot (bodies (sL s)) = [(1/2 - r, 1/2); (1/2 + r, 1/2)] /\ after calm fill n s [] = Ok (s', tr) /\
  plain t /\ sP t = sP s /\ sG t = sG s /\ bodies (sL t) = map turned (bodies (sL s')) /\ after calm fill n t [] = Ok (t', tr') /\
  map spot (bodies (sL t')) = [(1/2 - u, 1/2); (1/2 + u, 1/2)] /\ 0 < u < r.
Proof.
  intros fill h v r n Hr H0 H1 Hn. destruct (grid_init_ok ex_gridp ex_bounds ex_proper) as (G & EG & OK). pose proof (no_walls G EG OK) as HW.
  assert (CR : forall k, 0 < closing h v k r <= r) by (intros k; apply closing_range; lra).
  set (r' := closing h v n r).
  assert (GR : forall k, (k <= n)%nat -> 0 < closing h (- v) k r' <= closing h v (n - k) r /\ ((0 < k)%nat -> closing h (- v) k r' < closing h v (n - k) r)).
  { induction k as [|k IH]; intros Hk; [cbn [closing]; rewrite Nat.sub_0_r; unfold r'; split; [pose proof (CR n); lra|lia]|].
    destruct (IH ltac:(lia)) as [[I1 I2] _]. cbn [closing]. set (q := closing h (- v) k r') in *. clearbody q. replace (n - k)%nat with (S (n - S k)) in I2 by lia. cbn [closing] in I2.
    pose proof (CR (n - S k)%nat) as C. set (p := closing h v (n - S k) r) in *. clearbody p. unfold closer in *. set (e := h * v) in *.
    replace (q - 4 * h * - v * (q * q)) with (q + 4 * e * (q * q)) by (unfold e; ring). replace (p - 4 * h * v * (p * p)) with (p - 4 * e * (p * p)) in I2 by (unfold e; ring).
    clearbody e. assert (Q : q < p) by (assert (0 < 4 * e * (p * p)) by (repeat apply Rmult_lt_0_compat; lra); lra).
    assert (QQ : 4 * e * (q * q) < 4 * e * (p * p)) by (apply Rmult_lt_compat_l; [lra|]; nra).
    assert (0 < 4 * e * (q * q)) by (repeat apply Rmult_lt_0_compat; lra). split; [lra|]. intros _. lra. }
  assert (RG : forall k, - (1/2) < closing h v k r < 1/2) by (intros k; pose proof (CR k); lra).
  assert (RB : forall k, (k <= n)%nat -> - (1/2) < closing h (- v) k r' < 1/2) by (intros k Hk; pose proof (GR k Hk) as [A _]; pose proof (CR (n - k)%nat); lra).
  destruct (p_C84_run calm fill n (duel_state G h r v) [] (duel_plain G h r v OK)) as (s' & tr & E & _ & EB); [intros P; split; discriminate| |].
  { intros k Hk. cbn [duel_state sP sG sL]. rewrite (duel_run G h v r k HW) by (intros; apply RG). exact (duel_inside _ v (RG k)). }
  destruct (p_C84_run calm fill n (duel_state G h r' (- v)) [] (duel_plain G h r' (- v) OK)) as (t' & tr' & E' & _ & EB'); [intros P; split; discriminate| |].
  { intros k Hk. cbn [duel_state sP sG sL]. rewrite (duel_run G h (- v) r' k HW) by (intros; apply RB; lia). apply duel_inside, RB. lia. }
  exists (duel_state G h r v), s', (duel_state G h r' (- v)), t', tr, tr', (closing h (- v) n r').
  split; [apply duel_plain, OK|]. split; [reflexivity|]. split; [reflexivity|]. split; [exact E|]. split; [apply duel_plain, OK|]. split; [reflexivity|]. split; [reflexivity|]. split.
  - rewrite EB. cbn [duel_state sP sG sL]. rewrite (duel_run G h v r n HW) by (intros; apply RG). fold r'. cbn. unfold turned, mp_of, v3. cbn. repeat (f_equal; try (unR; ring)).
  - split; [exact E'|]. rewrite EB'. cbn [duel_state sP sG sL]. rewrite (duel_run G h (- v) r' n HW) by (intros; apply RB; lia). split; [reflexivity|].
    destruct (GR n (Nat.le_refl n)) as [[A _] C]. specialize (C Hn). rewrite Nat.sub_diag in C. cbn [closing] in C. split; assumption.
Qed.
(** Points a quarter of a cell from the middle, with speed one and a time step of a tenth. *)
Example x_C146_back : 0 < 1/4 < 1/2 /\ 0 < 1/10 * 1 /\ 4 * (1/10 * 1) * (1/4) < 1 /\ closing (1/10) 1 1 (1/4) = 9/40 /\ closing (1/10) (-1) 1 (9/40) = 981/4000.
Proof. unfold closing, closer. repeat split; lra. Qed.
