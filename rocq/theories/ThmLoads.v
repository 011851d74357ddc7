(** * The loads that the input scripts prescribe: C97, C98 *)
From Coq Require Import ZArith Reals List Bool Arith Lra Lia.
From Verif Require Import State NumR Spec SpecLaws SpecStep SpecScheme SpecRing LibList LibR ModelGrid ModelInputs ModelConstit ModelParticle ModelMPList
  ModelIntegr ModelMain ProofsGrid ProofsMap ProofsP2G ProofsWalls ProofsLaws ProofsInOut ProofsHist Concrete
  ThmMapping ThmWalls ThmLaws ThmInOut ThmHist ProofsStep ProofsPoints ThmStep ThmBalance ThmEnergy ThmFall ThmGeo ProofsScheme ThmScheme.
Import ListNotations.
Local Open Scope R_scope.

(** ** C97 *)
Definition done (t t_c : R) : R := 1 - exp (- 3 * (t * t) / (t_c * t_c)).
Lemma done_in t t_c : 0 < t_c -> 0 <= done t t_c < 1.
Proof.
  intros H. unfold done. pose proof (exp_pos (- 3 * (t * t) / (t_c * t_c))). split; [|lra].
  assert (- 3 * (t * t) / (t_c * t_c) <= 0). { assert (0 <= (t * t) / (t_c * t_c)). { apply Rmult_le_pos; [nra|]. left. apply Rinv_0_lt_compat. nra. } unfold Rdiv in *. lra. }
  destruct H1 as [H1|H1]; [left|]. - pose proof (exp_increasing _ _ H1). rewrite exp_0 in *. lra. - rewrite H1, exp_0. lra.
Qed.
Lemma done_mono t t' t_c : 0 < t_c -> 0 <= t <= t' -> done t t_c <= done t' t_c.
Proof.
  intros H Ht. unfold done. assert (- 3 * (t' * t') / (t_c * t_c) <= - 3 * (t * t) / (t_c * t_c)).
  { unfold Rdiv. apply Rmult_le_compat_r; [left; apply Rinv_0_lt_compat; nra|nra]. }
  destruct H0 as [H0|H0]; [pose proof (exp_increasing _ _ H0); lra|rewrite H0; lra].
Qed.
(** The ramp starts from nothing, never overshoots, never goes back, never
    changes sign and comes as near to its target as one likes. *)
Lemma p_C97_ramp : forall M t_c, 0 < t_c ->
  ramp M 0 t_c = 0 /\
  (forall t, Rabs (ramp M t t_c) <= Rabs M /\ 0 <= M * ramp M t t_c) /\
  (forall t t', 0 <= t <= t' -> Rabs (ramp M t t_c) <= Rabs (ramp M t' t_c)) /\
  (forall eps, 0 < eps -> exists T, forall t, T <= t -> Rabs (ramp M t t_c - M) < eps).
Proof.
  intros M t_c H. assert (E : forall t, ramp M t t_c = M * done t t_c) by reflexivity. split; [|split; [|split]].
  - unfold ramp. replace (- 3 * (0 * 0) / (t_c * t_c)) with 0 by (field; lra). rewrite exp_0. ring.
  - intros t. rewrite E. pose proof (done_in t t_c H). split; [|nra]. rewrite Rabs_mult, (Rabs_right (done t t_c)) by lra. pose proof (Rabs_pos M). nra.
  - intros t t' Ht. rewrite !E, !Rabs_mult. pose proof (done_in t t_c H). pose proof (done_in t' t_c H). pose proof (done_mono t t' t_c H Ht).
    rewrite !(Rabs_right (done _ _)) by lra. apply Rmult_le_compat_l; [apply Rabs_pos|lra].
  - intros eps He. destruct (Req_dec M 0) as [->|HM].
    + exists 0. intros t _. unfold ramp. rewrite Rmult_0_l, Rminus_0_r, Rabs_R0. exact He.
    + assert (HA : 0 < Rabs M) by (apply Rabs_pos_lt; exact HM). set (w := Rabs M / eps). assert (Hw : 0 < w) by (apply Rdiv_lt_0_compat; lra).
      exists (t_c * (w + 1)). intros t Ht. rewrite E. unfold done. replace (M * (1 - exp (-3 * (t * t) / (t_c * t_c))) - M) with (- (M * exp (-3 * (t * t) / (t_c * t_c)))) by ring.
      rewrite Rabs_Ropp, Rabs_mult, (Rabs_right (exp _)) by (left; apply exp_pos).
      assert (X : -3 * (t * t) / (t_c * t_c) <= - (w + 1)).
      { assert (Q : w + 1 <= t / t_c). { apply Rmult_le_reg_r with t_c; [exact H|]. unfold Rdiv. rewrite Rmult_assoc, Rinv_l by lra. lra. }
        replace (-3 * (t * t) / (t_c * t_c)) with (-3 * ((t / t_c) * (t / t_c))) by (field; lra). nra. }
      assert (Y : exp (-3 * (t * t) / (t_c * t_c)) <= exp (- (w + 1))). { destruct X as [X|X]; [left; apply exp_increasing; exact X|rewrite X; lra]. }
      assert (Z : w < exp (w + 1)). { pose proof (exp_ineq1 (w + 1) ltac:(lra)). lra. }
      rewrite exp_Ropp in Y. apply Rle_lt_trans with (Rabs M * / exp (w + 1)); [apply Rmult_le_compat_l; lra|].
      apply Rmult_lt_reg_r with (exp (w + 1)); [apply exp_pos|]. rewrite Rmult_assoc, Rinv_l by (pose proof (exp_pos (w + 1)); lra).
      unfold w in Z. apply Rmult_lt_compat_r with (r := eps) in Z; [|exact He]. unfold Rdiv in Z. rewrite Rmult_assoc, Rinv_l in Z by lra. fold (Rabs M / eps) in Z. fold w in Z. lra.
Qed.
(** The parameters after [n] passes of the main loop, with a fixed time step. *)
Lemma clock_at uf n : forall P : params R, p_t (clock uf n P) = p_t P + INR n * p_dt P /\ p_max_g (clock uf n P) = p_max_g P /\ p_tf (clock uf n P) = p_tf P /\
  p_loads (clock uf (Datatypes.S n) P) = uf (clock uf n P).
Proof.
  induction n as [|n IH]; intros P; [repeat split; cbn; unR; ring|]. destruct (IH (ticked uf P)) as (A & B & C & D). change (clock uf (Datatypes.S n) P) with (clock uf n (ticked uf P)).
  rewrite A, B, C. split; [rewrite S_INR; cbn; unR; ring|]. do 2 (split; [reflexivity|]). exact D.
Qed.
Lemma after_clock uf fill n : forall (s s' : state R) tr tr', p_dynamic (sP s) = false -> after uf fill n s tr = Ok (s', tr') -> sP s' = clock uf n (sP s).
Proof.
  induction n as [|n IH]; intros s s' tr tr' Hd E; cbn [after] in E; [injection E as <- _; reflexivity|].
  destruct (pass uf fill s tr) as [[s1 tr1]|] eqn:E1; [|discriminate]. destruct (pass_fixed uf fill s tr s1 tr1 Hd E1) as (s2 & _ & _ & _ & EP).
  rewrite (IH s1 s' tr1 tr') by (try exact E; rewrite EP; exact Hd). rewrite EP. reflexivity.
Qed.
(** Over a run with the ramp: the gravity of the [n]-th pass is that of its
    time, gravity never decreases in size from one pass to the next and never
    exceeds P.max_g. *)
Lemma p_C97_run : forall fill n t_c (s s1 s2 : state R) tr tr1 tr2, 0 < t_c -> 0 <= p_t (sP s) -> 0 <= p_dt (sP s) -> p_dynamic (sP s) = false ->
  after (ramp_forces t_c) fill (Datatypes.S n) s tr = Ok (s1, tr1) -> after (ramp_forces t_c) fill (Datatypes.S (Datatypes.S n)) s tr = Ok (s2, tr2) ->
  ld_g (p_loads (sP s1)) = ramp (p_max_g (sP s)) (p_t (sP s) + INR n * p_dt (sP s)) t_c /\
  Rabs (ld_g (p_loads (sP s1))) <= Rabs (ld_g (p_loads (sP s2))) <= Rabs (p_max_g (sP s)).
Proof.
  intros fill n t_c s s1 s2 tr tr1 tr2 Hc Ht Hdt Hd E1 E2.
  rewrite (after_clock _ _ _ _ _ _ _ Hd E1), (after_clock _ _ _ _ _ _ _ Hd E2).
  destruct (clock_at (ramp_forces t_c) n (sP s)) as (A1 & B1 & _ & ->). destruct (clock_at (ramp_forces t_c) (Datatypes.S n) (sP s)) as (A2 & B2 & _ & ->).
  set (Q1 := clock (ramp_forces t_c) n (sP s)) in *. set (Q2 := clock (ramp_forces t_c) (Datatypes.S n) (sP s)) in *. clearbody Q1 Q2.
  unfold ramp_forces. cbn [ld_g]. rewrite A1, A2, B1, B2. split; [reflexivity|].
  destruct (p_C97_ramp (p_max_g (sP s)) t_c Hc) as (_ & X & Y & _). split; [|apply X]. apply Y. rewrite S_INR. pose proof (pos_INR n). nra.
Qed.
(** The unit tests that drive a sample by its surfaces: both loads rise together
    to P.max_q at [t_c]; from then on the sum stays the same while the horizontal
    load rises and the vertical one falls at the same rate; no jump. *)
Lemma p_C97_path : forall k max_q (P : params R), 0 < k -> 0 < p_tf P -> let t_c := p_tf P / k in let l := dp_forces k max_q P in
  ld_g l = 0 /\ ld_theta l = ld_theta (p_loads P) /\
  (p_t P <= t_c -> ld_qv l = max_q * (p_t P / t_c) /\ ld_qh l = max_q * (p_t P / t_c)) /\
  (t_c <= p_t P -> ld_qv l + ld_qh l = 2 * max_q /\ ld_qh l - ld_qv l = 2 * max_q * (p_t P / t_c - 1)).
Proof.
  intros k max_q P Hk Hf t_c l. assert (Hc : 0 < t_c) by (apply Rdiv_lt_0_compat; assumption). unfold l, dp_forces. cbv zeta. fold t_c.
  destruct (Rlt_dec (p_t P) t_c) as [A|A]; cbn [ld_g ld_theta ld_qv ld_qh]; (split; [reflexivity|]); (split; [reflexivity|]); split; intros B.
  - split; field; lra.
  - lra.
  - assert (p_t P = t_c) by lra. rewrite H. split; field; lra.
  - split; field; lra.
Qed.
(** dp_rate_unit_test ends when the vertical load vanishes; pouliquen_unit_test
    is the same path. *)
Lemma p_C97_rate : forall max_q (P : params R), 0 < p_tf P -> 0 <= max_q -> 0 <= p_t P <= p_tf P ->
  0 <= ld_qv (dp_forces 2 max_q P) <= max_q /\ 0 <= ld_qh (dp_forces 2 max_q P) <= 2 * max_q /\ pouliquen_forces max_q P = dp_forces 2 max_q P.
Proof.
  intros max_q P Hf Hq Ht. unfold dp_forces, pouliquen_forces. cbv zeta. set (t_c := p_tf P / 2). assert (Hc : 0 < t_c) by (unfold t_c; lra).
  set (u := p_t P / t_c). assert (Hu : 0 <= u <= 2).
  { unfold u. split; [apply Rmult_le_pos; [lra|left; apply Rinv_0_lt_compat; lra]|]. apply Rmult_le_reg_r with t_c; [lra|]. unfold Rdiv. rewrite Rmult_assoc, Rinv_l by lra. unfold t_c. lra. }
  destruct (Rlt_dec (p_t P) t_c) as [A|A]; cbn [ld_qv ld_qh].
  - assert (u < 1). { unfold u. apply Rmult_lt_reg_r with t_c; [lra|]. unfold Rdiv. rewrite Rmult_assoc, Rinv_l by lra. lra. }
    replace (max_q * p_t P / t_c) with (max_q * u) by (unfold u; field; lra). split; [nra|]. split; [nra|]. f_equal; unfold u; field; lra.
  - assert (1 <= u). { unfold u. apply Rmult_le_reg_r with t_c; [lra|]. unfold Rdiv. rewrite Rmult_assoc, Rinv_l by lra. lra. }
    fold u. replace (p_t P * max_q / t_c) with (max_q * u) by (unfold u; field; lra). split; [nra|]. split; [nra|]. f_equal; unfold u; field; lra.
Qed.
(** In dp_unit_test the turning point is at a tenth of the run: after a fifth of
    it the vertical load is negative, it pulls at the sample, up to eight times
    P.max_q in the end. *)
Lemma p_C97_tension_refuted : exists max_q (P : params R), 0 < p_tf P /\ 0 < max_q /\ 0 <= p_t P <= p_tf P /\ ld_qv (dp_forces 10 max_q P) < 0.
Proof.
  exists 1, (ex_params ex_box <| p_tf := 10 |> <| p_t := 3 |>). cbn. unfold dp_forces. cbn [p_tf p_t set]. split; [lra|]. split; [lra|]. split; [lra|].
  cbn. destruct (Rlt_dec 3 (10 / 10)); [lra|]. cbn. lra.
Qed.
Lemma p_C97_tension : forall max_q (P : params R), 0 < p_tf P -> 0 < max_q ->
  (ld_qv (dp_forces 10 max_q P) < 0 <-> p_tf P / 5 < p_t P \/ p_t P < 0) /\ (p_t P = p_tf P -> ld_qv (dp_forces 10 max_q P) = - 8 * max_q).
Proof.
  intros max_q P Hf Hq. unfold dp_forces. cbv zeta. set (t_c := p_tf P / 10). assert (Hc : 0 < t_c) by (unfold t_c; lra). set (u := p_t P / t_c).
  assert (Eu : p_t P = u * t_c) by (unfold u; field; lra). replace (p_tf P) with (10 * t_c) by (unfold t_c; lra).
  destruct (Rlt_dec (p_t P) t_c) as [A|A]; cbn [ld_qv].
  - replace (max_q * p_t P / t_c) with (max_q * u) by (unfold u; field; lra). split; [|intros X; lra]. split; [intros X; right; rewrite Eu; nra|]. intros [X|X]; [lra|]. rewrite Eu in X. nra.
  - fold u. split; [|intros X; rewrite Eu in X; assert (u = 10) by nra; rewrite H; lra]. split; [intros X; left; rewrite Eu; nra|]. intros [X|X]; [|lra]. rewrite Eu in X. nra.
Qed.

(** ** C98 *)
(** triaxial, brazillian, macro and vm_unit_test raise P.q slowly from zero, slope_stab
    keeps it zero, and the log prints it.  But nothing reads P.q: the loads on
    the surfaces are P.q_v and P.q_h, which initialise.py sets to P.max_q and
    these scripts leave alone.  The full load acts from the first step on, at
    every time, whatever P.q says. *)
Lemma p_C98_full : forall t_c n (P : params R) max_g max_q theta, p_loads P = first_loads max_g max_q theta ->
  let l := ramp_forces t_c (clock (ramp_forces t_c) n P) in ld_qv l = max_q /\ ld_qh l = max_q.
Proof.
  intros t_c n P max_g max_q theta E l.
  assert (H : forall n (Q : params R), ld_qv (p_loads Q) = max_q -> ld_qh (p_loads Q) = max_q ->
    ld_qv (p_loads (clock (ramp_forces t_c) n Q)) = max_q /\ ld_qh (p_loads (clock (ramp_forces t_c) n Q)) = max_q).
  { induction n0 as [|m IH]; intros Q A B; [split; assumption|]. cbn [clock]. apply IH; assumption. }
  destruct (H n P) as [A B]; [rewrite E; reflexivity..|]. split; [exact A|exact B].
Qed.
Lemma p_C98_refuted : exists t_c max_g max_q (P : params R), 0 < t_c /\ p_loads P = first_loads max_g max_q 0 /\ p_t P = 0 /\
  ramp_q max_q t_c P = 0 /\ slope_stab_q P = 0 /\ ld_qv (ramp_forces t_c P) = 1000 /\ ld_qh (ramp_forces t_c P) = 1000.
Proof.
  exists 1, (-1), 1000, (ex_params ex_box <| p_loads := first_loads (-1) 1000 0 |>). split; [lra|]. do 2 (split; [reflexivity|]).
  split; [apply (p_C97_ramp 1000 1); lra|]. repeat split.
Qed.
