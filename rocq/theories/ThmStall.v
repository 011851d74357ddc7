(** * Runs with a dynamic time step: C45, C117. *)
From Coq Require Import ZArith List Bool Arith Lia Reals Lra.
From Verif Require Import State NumR LibR LibList Spec SpecStep ModelGrid ModelConstit ModelParticle ModelMPList
  ModelIntegr ModelMain ProofsGrid ProofsMap ProofsP2G ProofsWalls ProofsLaws ProofsSym ProofsInOut ProofsHist Concrete
  ThmMapping ThmWalls ThmLaws ThmInOut ThmLoop ThmHist ProofsStep ThmStep ProofsPoints ThmBalance ThmRun.
Import ListNotations.
Local Open Scope R_scope.

(** Speed of node [i] along the axes. *)
Definition speeds (G : grid R) (i : nat) : R * R :=
  (Rabs (vx (nth i (gq G) v0) / nth i (gm G) 0), Rabs (vy (nth i (gq G) v0) / nth i (gm G) 0)).

(** The step is not smaller than it has to be: it is what the fastest node needs for a tenth of a cell, or the critical
    time of a phase.  The nodes that are too light to move any point count. *)
Lemma p_C45_tight : forall (P : params R) G L dx dy,
  pdx (pG P) = Some dx -> pdy (pG P) = Some dy -> 0 < dx -> 0 < dy ->
  length (gq G) = length (gm G) ->
  (exists i, (i < length (gm G))%nat /\ nth i (gm G) 0 <> 0 /\ (vx (nth i (gq G) v0) <> 0 \/ vy (nth i (gq G) v0) <> 0)) ->
  exists dt, dynamic_dt P G L = Ok dt /\
    ((exists i, (i < length (gm G))%nat /\
       (dt * fst (speeds G i) = p_CFL P * (1/10 * Rmin dx dy) \/ dt * snd (speeds G i) = p_CFL P * (1/10 * Rmin dx dy))) \/
     (exists ph c, In ph L /\ s_crit (ph_sol ph) = Some c /\ dt = p_CFL P * c)).
Proof.
  intros P G L dx dy EX EY HX HY HL (i0 & H0 & HM & HQ). unfold dynamic_dt. rewrite EX, EY. cbn [attr bind].
  set (l := zipw _ _ _ ++ zipw _ _ _).
  assert (IN : forall i, (i < length (gm G))%nat -> In (fst (speeds G i)) l /\ In (snd (speeds G i)) l).
  { intros i Hi. split; apply in_or_app; [left|right].
    - refine (in_zipw (fun q m => Rabs (vx q / m)) _ _ i v0 0 _ HL). lia.
    - refine (in_zipw (fun q m => Rabs (vy q / m)) _ _ i v0 0 _ HL). lia. }
  assert (OUT : forall x, In x l -> exists i, (i < length (gm G))%nat /\ (x = fst (speeds G i) \/ x = snd (speeds G i))).
  { intros x Hx. apply in_app_or in Hx. destruct Hx as [Hx|Hx]; apply In_nth with (d := 0) in Hx; destruct Hx as (i & Hi & <-);
      rewrite zipw_length in Hi; exists i; (split; [lia|]); [left|right]; rewrite (zipw_nth _ _ _ _ v0 0) by lia; reflexivity. }
  clearbody l. destruct l as [|a l]; [destruct (IN _ H0) as [[] _]|].
  cbn [lmax bind]. change (@nmax R Num_R) with Rmax. destruct (fold_max_ub l a) as (M1 & M2 & M3).
  set (vmax := fold_left Rmax l a) in *.
  assert (MX : forall x, In x (a :: l) -> x <= vmax) by (intros x [<-|Hx]; auto).
  assert (V0 : 0 < vmax).
  { destruct (IN _ H0) as [A B]. unfold speeds in A, B. cbn [fst snd] in A, B. destruct HQ as [Q|Q].
    - apply Rlt_le_trans with (Rabs (vx (nth i0 (gq G) v0) / nth i0 (gm G) 0)); [|auto]. apply Rabs_pos_lt. unfold Rdiv. apply Rmult_integral_contrapositive_currified; [auto|]. apply Rinv_neq_0_compat. auto.
    - apply Rlt_le_trans with (Rabs (vy (nth i0 (gq G) v0) / nth i0 (gm G) 0)); [|auto]. apply Rabs_pos_lt. unfold Rdiv. apply Rmult_integral_contrapositive_currified; [auto|]. apply Rinv_neq_0_compat. auto. }
  set (crit := flat_map _ L).
  cbn [lmin bind]. unR. set (tc := _ / vmax). eexists. split; [reflexivity|].
  destruct (fold_min_lb crit tc) as (L1 & L2 & L3).
  destruct L3 as [L3|I].
  - left. assert (VM : In vmax (a :: l)) by (destruct M3 as [M3|M3]; [left; exact M3|right; exact M3]).
    destruct (OUT _ VM) as (i & Hi & Q). exists i. split; [exact Hi|].
    assert (T0 : tc * vmax = 1/10 * Rmin dx dy) by (unfold tc, lit; unR; field; lra).
    assert (W : p_CFL P * fold_left Rmin crit tc * vmax = p_CFL P * (1/10 * Rmin dx dy)).
    { rewrite <- T0, <- L3. ring. }
    destruct Q as [<-|<-]; [left|right]; exact W.
  - right. unfold crit in I at 2. apply in_flat_map in I as (ph & A & B). destruct (s_crit (ph_sol ph)) as [c|] eqn:EC; [|destruct B].
    destruct B as [<-|[]]. exists ph, c. split; [exact A|]. split; [exact EC|reflexivity].
Qed.

(** After a pass: the fastest node moves with a speed of at most [V], and some node with mass moves; critical times are at
    least [c]. *)
Definition moderate (V c : R) (s : state R) : Prop :=
  length (gq (sG s)) = length (gm (sG s)) /\
  (exists i, (i < length (gm (sG s)))%nat /\ nth i (gm (sG s)) 0 <> 0 /\ (vx (nth i (gq (sG s)) v0) <> 0 \/ vy (nth i (gq (sG s)) v0) <> 0)) /\
  (forall i, (i < length (gm (sG s)))%nat -> fst (speeds (sG s) i) <= V /\ snd (speeds (sG s) i) <= V) /\
  (forall ph t, In ph (sL s) -> s_crit (ph_sol ph) = Some t -> c <= t).

(** The states that the loop of MPM.py:62 goes through. *)
Inductive going (uf : params R -> loads R) fill (s : state R) : state R -> Prop :=
| going_0 : going uf fill s s
| going_S s1 tr s2 tr' : going uf fill s s1 -> p_t (sP s1) <= p_tf (sP s1) -> pass uf fill s1 tr = Ok (s2, tr') -> going uf fill s s2.

(** A run with a dynamic step ends, in a known number of passes, if no node becomes faster than [V] and no critical time
    falls below [c] as long as it lasts. *)
Lemma p_C117_bounded : forall uf fill fuel (s : state R) dx dy V c, p_dynamic (sP s) = true -> 0 <= p_dt (sP s) -> 0 < p_CFL (sP s) ->
  pdx (pG (sP s)) = Some dx -> pdy (pG (sP s)) = Some dy -> 0 < dx -> 0 < dy -> 0 < V -> 0 < c ->
  (forall s1 tr s2 tr', going uf fill s s1 -> p_t (sP s1) <= p_tf (sP s1) -> pass uf fill s1 tr = Ok (s2, tr') -> moderate V c s2) ->
  p_tf (sP s) - p_t (sP s) < INR fuel * (p_CFL (sP s) * Rmin (1/10 * Rmin dx dy / V) c) ->
  main_loop uf fill (Datatypes.S fuel) s <> None.
Proof.
  intros uf fill fuel s dx dy V c HD Hdt HC EX EY HX HY HV Hc HM HF.
  set (d := p_CFL (sP s) * Rmin (1/10 * Rmin dx dy / V) c) in *.
  assert (D0 : 0 < Rmin dx dy) by (apply Rmin_pos; assumption).
  assert (PASS : forall s1 tr s2 tr', going uf fill s s1 -> p_t (sP s1) <= p_tf (sP s1) ->
    p_dynamic (sP s1) = true -> pG (sP s1) = pG (sP s) -> p_CFL (sP s1) = p_CFL (sP s) -> pass uf fill s1 tr = Ok (s2, tr') ->
    p_dynamic (sP s2) = true /\ pG (sP s2) = pG (sP s) /\ p_CFL (sP s2) = p_CFL (sP s) /\ p_t (sP s2) = p_t (sP s1) + p_dt (sP s1) /\
    p_tf (sP s2) = p_tf (sP s1) /\ d <= p_dt (sP s2)).
  { intros s1 tr s2 tr' RE HT D1 G1 C1 E. destruct (HM s1 tr s2 tr' RE HT E) as (LQ & MV & SP & CR).
    destruct (pass_inv uf fill s1 tr s2 tr' E) as (s3 & dt & E3 & EL & EG & EP).
    rewrite EP. cbn [p_dynamic pG p_CFL p_t p_tf p_dt set]. repeat (split; [first [assumption|reflexivity]|]).
    assert (ED : dynamic_dt (sP s3 <| p_t := p_t (sP s3) + p_dt (sP s3) |> <| p_tstep := (p_tstep (sP s3) + 1)%Z |>) (sG s3) (sL s3) = Ok dt).
    { pose proof (step_params _ _ _ _ E3) as E3P. unfold pass in E. rewrite E3 in E. cbn [bind] in E. cbv zeta in E.
      destruct (p_tf (sP s3) =? n0)%num; [discriminate|]. destruct (save_due (sP s3)) as [due|]; [|discriminate]. cbn [bind] in E.
      match type of E with context [if ?b then _ else _] => replace b with true in E by (rewrite E3P; symmetry; exact D1) end.
      match type of E with (bind ?x _ = _) => destruct x as [dt'|] eqn:EE; [|discriminate] end. cbn [bind] in E. injection E as E _.
      assert (dt' = dt) by (rewrite <- E in EP; apply (f_equal p_dt) in EP; cbn in EP; exact EP). subst dt'. exact EE. }
    rewrite EL in *. rewrite EG in *.
    match type of ED with dynamic_dt ?P _ _ = _ => destruct (p_C45_tight P (sG s3) (sL s3) dx dy) as (dt2 & E2 & TI) end; try assumption.
    { cbn. rewrite (step_params _ _ _ _ E3). cbn. rewrite G1. exact EX. }
    { cbn. rewrite (step_params _ _ _ _ E3). cbn. rewrite G1. exact EY. }
    rewrite ED in E2. injection E2 as <-. cbn [p_CFL set] in TI. rewrite (step_params _ _ _ _ E3) in TI. cbn [p_CFL set] in TI. rewrite C1 in TI.
    assert (K : forall w, 0 <= w -> w <= V -> dt * w = p_CFL (sP s) * (1/10 * Rmin dx dy) -> d <= dt).
    { intros w W0 W1 W2. assert (NP : 0 < p_CFL (sP s) * (1/10 * Rmin dx dy)) by (apply Rmult_lt_0_compat; lra).
      assert (WP : 0 < w) by (destruct (Rle_lt_or_eq_dec 0 w W0) as [?|Z]; [assumption|rewrite <- Z in W2; lra]).
      assert (DP : 0 < dt) by (apply (Rmult_lt_reg_r w); [exact WP|lra]).
      apply Rle_trans with (p_CFL (sP s) * (1/10 * Rmin dx dy / V)).
      - unfold d. apply Rmult_le_compat_l; [lra|]. apply Rmin_l.
      - apply (Rmult_le_reg_r V); [exact HV|]. replace (p_CFL (sP s) * (1 / 10 * Rmin dx dy / V) * V) with (dt * w) by (rewrite W2; field; lra).
        apply Rmult_le_compat_l; lra. }
    destruct TI as [(i & Hi & [T|T])|(ph & t & A & B & ->)].
    - apply (K _ (Rabs_pos _) (proj1 (SP i Hi)) T).
    - apply (K _ (Rabs_pos _) (proj2 (SP i Hi)) T).
    - unfold d. apply Rmult_le_compat_l; [lra|]. apply Rle_trans with c; [apply Rmin_r|apply (CR ph t A B)]. }
  assert (LOOP : forall n s1 tr, going uf fill s s1 -> p_dynamic (sP s1) = true -> pG (sP s1) = pG (sP s) -> p_CFL (sP s1) = p_CFL (sP s) ->
    d <= p_dt (sP s1) -> p_tf (sP s1) - p_t (sP s1) < INR n * d -> march uf fill n s1 tr <> None).
  { induction n as [|n IH]; intros s1 tr RE D1 G1 C1 DD HN; cbn [march].
    - cbn in HN. destruct (p_t (sP s1) <=? p_tf (sP s1))%num eqn:LE; [apply Rleb_true in LE; lra|discriminate].
    - destruct (p_t (sP s1) <=? p_tf (sP s1))%num eqn:LE; [|discriminate]. apply Rleb_true in LE.
      destruct (pass uf fill s1 tr) as [[s2 tr2]|] eqn:EP; [|discriminate].
      destruct (PASS s1 tr s2 tr2 RE LE D1 G1 C1 EP) as (D2 & G2 & C2 & T2 & F2 & DD2).
      apply IH; try assumption; [eapply going_S; eassumption|]. rewrite T2, F2. rewrite S_INR in HN. lra. }
  unfold main_loop. cbn [march].
  destruct (p_t (sP s) <=? p_tf (sP s))%num eqn:LE; [|discriminate]. apply Rleb_true in LE.
  destruct (pass uf fill s [EInitial]) as [[s2 tr2]|] eqn:EP; [|discriminate].
  destruct (PASS s _ s2 tr2 (going_0 _ _ _) LE HD eq_refl eq_refl EP) as (D2 & G2 & C2 & T2 & F2 & DD2).
  assert (RE : going uf fill s s2) by (eapply going_S; [apply going_0|exact LE|exact EP]).
  assert (HN : p_tf (sP s2) - p_t (sP s2) < INR fuel * d) by (rewrite T2, F2; lra).
  specialize (LOOP fuel s2 tr2 RE D2 G2 C2 DD2 HN). destruct (march uf fill fuel s2 tr2) as [[[? ?]|]|]; congruence.
Qed.

Example x_C45_tight : forall G : grid R,
  let G := G <| gm := [1; 0; 2; 1] |> <| gq := [v0; v0; mkV3 3 0 0; mkV3 1 (-1) 0] |> in
  pdx (pG (ex_params ex_bounds)) = Some 1 /\ pdy (pG (ex_params ex_bounds)) = Some 1 /\ length (gq G) = length (gm G) /\
  exists i, (i < length (gm G))%nat /\ nth i (gm G) 0 <> 0 /\ (vx (nth i (gq G) v0) <> 0 \/ vy (nth i (gq G) v0) <> 0).
Proof.
  intros G0 G. split; [reflexivity|]. split; [reflexivity|]. split; [reflexivity|].
  exists 2%nat. cbn. split; [lia|]. split; [lra|]. left. lra.
Qed.
