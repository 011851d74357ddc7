(** * Runs do not depend on the units, and mirrored set-ups run mirrored: C86, C87, C88. *)
From Coq Require Import ZArith Reals List Bool Arith Lra Lia Permutation.
From Verif Require Import State NumR Spec SpecLaws SpecStep SpecScheme SpecView LibList LibR ModelGrid ModelConstit ModelParticle ModelMPList
  ModelIntegr ModelMain ProofsGrid ProofsMap ProofsP2G ProofsWalls ProofsLaws ProofsInOut ProofsHist Concrete
  ThmMapping ThmWalls ThmLaws ThmInOut ThmHist ProofsStep ProofsPoints ThmStep ThmBalance ThmEnergy ThmFall ThmGeo ProofsScheme ProofsView ThmScheme.
Import ListNotations.
Local Open Scope R_scope.

Lemma clock_grid uf n : forall P, pG (clock uf n P) = pG P /\ pB (clock uf n P) = pB P /\ p_dt (clock uf n P) = p_dt P /\
  p_Mtol (clock uf n P) = p_Mtol P /\ p_damping (clock uf n P) = p_damping P /\ p_check (clock uf n P) = p_check P.
Proof. induction n as [|n IH]; intros P; [repeat split; reflexivity|]. cbn [clock]. destruct (IH (ticked uf P)) as (-> & -> & -> & -> & -> & ->). repeat split; reflexivity. Qed.
Definition scheme_at uf n (P : params R) (G : grid R) : scheme := scheme_of (clock uf n P) (uf (clock uf n P)) G.
Lemma t_run_S uf n : forall P G B, t_run uf (Datatypes.S n) P G B = t_step (scheme_at uf n P G) (t_run uf n P G B).
Proof. induction n as [|n IH]; intros P G B; [reflexivity|]. change (t_run uf (Datatypes.S (Datatypes.S n)) P G B) with (t_run uf (Datatypes.S n) (ticked uf P) G (t_step (scheme_of P (uf P) G) B)). rewrite IH. reflexivity. Qed.

Lemma see_run y uf uf' n : fair y -> forall P P' G G' B, (forall j, (j < n)%nat -> same_scheme y (scheme_at uf j P G) (scheme_at uf' j P' G')) ->
  (forall j, (j < n)%nat -> Forall (fun q => same_slopes y (pG P) (pG P') (q_x q)) (t_run uf j P G B)) ->
  t_run uf' n P' G' (map (see y) B) = map (see y) (t_run uf n P G B).
Proof.
  intros FY. induction n as [|n IH]; intros P P' G G' B HS HF; [reflexivity|].
  rewrite !t_run_S. rewrite (IH P P' G G' B) by (intros; (apply HS || apply HF); lia).
  apply see_step; [exact FY|apply HS; lia|].
  destruct (clock_grid uf n P) as (E1 & _), (clock_grid uf' n P') as (E2 & _). unfold fits, scheme_at, scheme_of. cbn [e_P].
  rewrite E1, E2. apply HF. lia.
Qed.

(** In the first [n] passes the points satisfy [Q]. *)
Definition during uf fill n (s : state R) tr (Q : V3 R -> Prop) : Prop :=
  forall j sj trj, (j < n)%nat -> after uf fill j s tr = Ok (sj, trj) -> all_live (sL sj) (fun _ p => Q (px p)).
(** The points are where the next step finds its four nodes. *)
Definition placed (P : params R) (x : V3 R) : Prop := in_dom (pG P) x /\ (p_check P = true -> vz x = 0).

Lemma live_bodies (L : list (phase R)) (Q : V3 R -> Prop) : forall k, all_live L (fun _ p => Q (px p)) -> Forall (fun q => Q (q_x q)) (bodies_from k L).
Proof.
  induction L as [|ph L IH]; intros k H; [constructor|]. cbn [bodies_from]. apply Forall_app. split.
  - apply Forall_forall. intros q Hq. apply in_map_iff in Hq. destruct Hq as (p & <- & Hp). exact (H ph p (or_introl eq_refl) Hp).
  - apply IH. intros ph1 p1 A C. exact (H ph1 p1 (or_intror A) C).
Qed.
Lemma run_t_run uf fill n (s : state R) tr (Q : V3 R -> Prop) : plain s -> (forall P, no_surface (sP s) (uf P)) -> (forall x, Q x -> placed (sP s) x) ->
  during uf fill n s tr Q -> (forall j, (j < n)%nat -> Forall (fun q => Q (q_x q)) (t_run uf j (sP s) (sG s) (bodies (sL s)))) /\
  exists s' tr', after uf fill n s tr = Ok (s', tr') /\ bodies (sL s') = t_run uf n (sP s) (sG s) (bodies (sL s)).
Proof.
  intros HPl HN HQ HD.
  assert (A : forall m, (m <= n)%nat -> (forall j, (j < m)%nat -> Forall (fun q => Q (q_x q)) (t_run uf j (sP s) (sG s) (bodies (sL s)))) /\
    exists s' tr', after uf fill m s tr = Ok (s', tr') /\ bodies (sL s') = t_run uf m (sP s) (sG s) (bodies (sL s))).
  { induction m as [|m IH]; intros Hm.
    - split; [intros; lia|]. exists s, tr. split; reflexivity.
    - destruct IH as [F (sm & trm & E & EB)]; [lia|].
      assert (F' : forall j, (j < Datatypes.S m)%nat -> Forall (fun q => Q (q_x q)) (t_run uf j (sP s) (sG s) (bodies (sL s)))).
      { intros j Hj. destruct (Nat.eq_dec j m) as [->|N]; [|apply F; lia]. rewrite <- EB. apply live_bodies. apply (HD m sm trm); [lia|exact E]. }
      split; [exact F'|].
      destruct (p_C84_run uf fill (Datatypes.S m) s tr HPl HN) as (s' & tr' & B1 & _ & B3).
      + intros j Hj. eapply Forall_impl; [|exact (F' j Hj)]. intros q. apply HQ.
      + eauto. }
  exact (A n (le_n n)).
Qed.

(** Two runs of which the second is the first seen through [y] stay so, as long as the points of the first run are in the domain
    in both views and the tent functions have the same gradients there. *)
Lemma p_C86_view : forall y uf uf' fill fill' n (s s' : state R) tr tr', fair y -> plain s -> plain s' ->
  (forall P, no_surface (sP s) (uf P)) -> (forall P, no_surface (sP s') (uf' P)) ->
  (forall j, (j < n)%nat -> same_scheme y (scheme_at uf j (sP s) (sG s)) (scheme_at uf' j (sP s') (sG s'))) ->
  bodies (sL s') = map (see y) (bodies (sL s)) ->
  during uf fill n s tr (fun x => placed (sP s) x /\ placed (sP s') (see_point y x) /\ same_slopes y (pG (sP s)) (pG (sP s')) x) ->
  exists z t z' t', after uf fill n s tr = Ok (z, t) /\ after uf' fill' n s' tr' = Ok (z', t') /\
  bodies (sL z') = map (see y) (bodies (sL z)).
Proof.
  intros y uf uf' fill fill' n s s' tr tr' FY PL PL' NS NS' SS EB HD.
  destruct (run_t_run uf fill n s tr _ PL NS (fun x H => proj1 H) HD) as [HF (z & t & A1 & A2)].
  assert (SR : forall m, (m <= n)%nat -> t_run uf' m (sP s') (sG s') (bodies (sL s')) = map (see y) (t_run uf m (sP s) (sG s) (bodies (sL s)))).
  { intros m Hm. rewrite EB. apply see_run; [exact FY|intros; apply SS; lia|].
    intros j Hj. eapply Forall_impl; [|apply (HF j); lia]. intros q H. apply H. }
  destruct (p_C84_run uf' fill' n s' tr' PL' NS') as (z' & t' & B1 & _ & B3).
  - intros j Hj. rewrite SR by lia. apply Forall_map. eapply Forall_impl; [|apply (HF j Hj)]. intros q H. cbn [see q_x]. apply H.
  - exists z, t, z', t'. split; [exact A1|]. split; [exact B1|]. rewrite B3, SR by lia. rewrite A2. reflexivity.
Qed.

(** ** C86: units *)
Definition unit_view (l m t : R) : view := mkView (fun a => a) (fun _ => 1) l m t v0 (fun k => k).
Lemma unit_fair l m t : 0 < l -> 0 < m -> 0 < t -> fair (unit_view l m t).
Proof. intros. constructor; auto. Qed.
(** The same set-up in units [l], [m], [t]: lengths are multiplied by [l], masses by [m], times by [t]. *)
Record rescaled (l m t : R) (P P' : params R) : Prop := {
  rs_nx : nx (pG P') = nx (pG P); rs_ny : ny (pG P') = ny (pG P);
  rs_xm : x_m (pG P') = l * x_m (pG P); rs_xM : x_M (pG P') = l * x_M (pG P);
  rs_ym : y_m (pG P') = l * y_m (pG P); rs_yM : y_M (pG P') = l * y_M (pG P);
  rs_dt : p_dt P' = t * p_dt P; rs_tol : p_Mtol P' = m * p_Mtol P;
  rs_damp : p_damping P' = p_damping P; rs_rough : roughness (pB P') = roughness (pB P); rs_check : p_check P' = p_check P }.
Lemma div_scale l a b : l <> 0 -> (l * a) / (l * b) = a / b.
Proof. intros H. unfold Rdiv. rewrite Rinv_mult. transitivity (l * / l * (a * / b)); [ring|]. rewrite Rinv_r by exact H. ring. Qed.
Section Units.
  Context (l m t : R) (Hl : 0 < l) (P P' : params R) (RS : rescaled l m t P P').
  Lemma rs_cw : cell_w (pG P') = l * cell_w (pG P).
  Proof. unfold cell_w. rewrite (rs_nx _ _ _ _ _ RS), (rs_xm _ _ _ _ _ RS), (rs_xM _ _ _ _ _ RS). unfold Rdiv. ring. Qed.
  Lemma rs_ch : cell_h (pG P') = l * cell_h (pG P).
  Proof. unfold cell_h. rewrite (rs_ny _ _ _ _ _ RS), (rs_ym _ _ _ _ _ RS), (rs_yM _ _ _ _ _ RS). unfold Rdiv. ring. Qed.
  Lemma rs_tx x k : (vx (see_point (unit_view l m t) x) - node_x (pG P') k) / cell_w (pG P') = (vx x - node_x (pG P) k) / cell_w (pG P).
  Proof.
    unfold node_x, col. rewrite rs_cw, (rs_nx _ _ _ _ _ RS), (rs_xm _ _ _ _ _ RS). rewrite <- (div_scale l (vx x - _) (cell_w (pG P))) by lra. f_equal. cbn. unR. ring.
  Qed.
  Lemma rs_ty x k : (vy (see_point (unit_view l m t) x) - node_y (pG P') k) / cell_h (pG P') = (vy x - node_y (pG P) k) / cell_h (pG P).
  Proof.
    unfold node_y, row. rewrite rs_ch, (rs_nx _ _ _ _ _ RS), (rs_ym _ _ _ _ _ RS). rewrite <- (div_scale l (vy x - _) (cell_h (pG P))) by lra. f_equal. cbn. unR. ring.
  Qed.
  Lemma rs_slopes x : same_slopes (unit_view l m t) (pG P) (pG P') x.
  Proof.
    intros a k Hk. cbn [y_axis y_node unit_view y_sign y_len].
    destruct a; cbn [ghat]; rewrite ?rs_tx, ?rs_ty, ?rs_cw, ?rs_ch; unfold Rdiv; rewrite ?Rinv_mult; ring.
  Qed.
  Lemma rs_placed x : placed P x -> placed P' (see_point (unit_view l m t) x).
  Proof.
    intros [[[A1 A2] [A3 A4]] A5]. unfold placed, in_dom. rewrite (rs_xm _ _ _ _ _ RS), (rs_xM _ _ _ _ _ RS), (rs_ym _ _ _ _ _ RS), (rs_yM _ _ _ _ _ RS), (rs_check _ _ _ _ _ RS).
    cbn. unR. repeat split; try nra. intros C. rewrite (A5 C). ring.
  Qed.
End Units.

(** A run does not depend on the units of length, mass and time: in other units the points are the same, seen in those units. *)
Lemma p_C86_units : forall l m t uf uf' fill fill' n (s s' : state R) tr tr', 0 < l -> 0 < m -> 0 < t -> plain s -> plain s' ->
  rescaled l m t (sP s) (sP s') -> bv (sG s') = bv (sG s) -> bh (sG s') = bh (sG s) ->
  (forall P, no_surface (sP s) (uf P)) -> (forall P, no_surface (sP s') (uf' P)) ->
  (forall j, ld_g (uf' (clock uf' j (sP s'))) = l / (t * t) * ld_g (uf (clock uf j (sP s))) /\
             ld_theta (uf' (clock uf' j (sP s'))) = ld_theta (uf (clock uf j (sP s)))) ->
  bodies (sL s') = map (see (unit_view l m t)) (bodies (sL s)) ->
  during uf fill n s tr (placed (sP s)) ->
  exists z w z' w', after uf fill n s tr = Ok (z, w) /\ after uf' fill' n s' tr' = Ok (z', w') /\
  bodies (sL z') = map (see (unit_view l m t)) (bodies (sL z)).
Proof.
  intros l m t uf uf' fill fill' n s s' tr tr' Hl Hm Ht PL PL' RS MV MH NS NS' LD EB HD.
  apply p_C86_view; auto using unit_fair.
  - intros j Hj. destruct (clock_grid uf j (sP s)) as (A1 & A2 & A3 & A4 & A5 & _), (clock_grid uf' j (sP s')) as (B1 & B2 & B3 & B4 & B5 & _).
    destruct (LD j) as [L1 L2]. constructor; unfold scheme_at, scheme_of, e_nodes; cbn [e_P e_dt e_tol e_damp e_open e_g].
    + intros f. rewrite A1, B1, (rs_nx _ _ _ _ _ RS), (rs_ny _ _ _ _ _ RS). reflexivity.
    + rewrite A3, B3. apply (rs_dt _ _ _ _ _ RS).
    + rewrite A4, B4. apply (rs_tol _ _ _ _ _ RS).
    + rewrite A5, B5, (rs_damp _ _ _ _ _ RS). reflexivity.
    + intros a k _. unfold passes. rewrite A2, B2, (rs_rough _ _ _ _ _ RS), MV, MH. reflexivity.
    + rewrite L1, L2. apply v3_ext. intros []; unfold see_vec, u_acc; cbn; unR; ring.
    + intros x k _. rewrite A1, B1. unfold hat. cbn [y_node unit_view]. rewrite (rs_tx l m t Hl _ _ RS), (rs_ty l m t Hl _ _ RS). reflexivity.
  - intros j sj trj Hj E ph p A C. specialize (HD j sj trj Hj E ph p A C). split; [exact HD|]. split; [eapply rs_placed; eauto|eapply rs_slopes; eauto].
Qed.

(** ** C87: mirror image *)
Lemma fsum_seq n f : fsum n f = Rsum (map f (seq 0 n)).
Proof.
  induction n as [|n IH]; [reflexivity|]. rewrite seq_S, map_app, Rsum_app. cbn [fsum map Nat.add]. rewrite IH. unfold Rsum. cbn [fold_right]. ring.
Qed.
Lemma NoDup_map_inj {A B} (f : A -> B) l : (forall x y, In x l -> In y l -> f x = f y -> x = y) -> NoDup l -> NoDup (map f l).
Proof.
  intros HI. induction 1 as [|x l N D IH]; [constructor|]. cbn. constructor.
  - intros H. apply in_map_iff in H. destruct H as (z & E & Hz). apply N. rewrite (HI x z); [exact Hz|left; auto|right; auto|auto].
  - apply IH. intros; apply HI; auto; right; auto.
Qed.
Lemma fsum_renumber n f (v : nat -> nat) : (forall i, (i < n)%nat -> (v i < n)%nat) ->
  (forall i j, (i < n)%nat -> (j < n)%nat -> v i = v j -> i = j) -> fsum n f = fsum n (fun i => f (v i)).
Proof.
  intros H1 H2. rewrite !fsum_seq. rewrite <- (map_map v f). apply Rsum_perm. apply Permutation_map. apply Permutation_sym.
  apply NoDup_Permutation_bis.
  - apply NoDup_map_inj; [|apply seq_NoDup]. intros i j Hi Hj. apply in_seq in Hi, Hj. apply H2; lia.
  - rewrite map_length. lia.
  - intros k Hk. apply in_map_iff in Hk. destruct Hk as (i & <- & Hi). apply in_seq in Hi. apply in_seq. pose proof (H1 i). lia.
Qed.
Definition mirror (P : gridp R) : view :=
  mkView (fun a => a) (fun a => match a with AX => -1 | _ => 1 end) 1 1 1 (mkV3 (x_m P + x_M P) 0 0)
    (fun k => (k / nx P * nx P + (nx P - 1 - k mod nx P))%nat).
Lemma mirror_fair P : fair (mirror P).
Proof. constructor; cbn; auto; try lra. intros []; auto. Qed.
(** No vertical line of nodes passes through [x]. *)
Definition off_lines (P : gridp R) (x : V3 R) : Prop := forall c, (c < nx P)%nat -> vx x <> x_m P + INR c * cell_w P.

Lemma tent_even t : tent (- t) = tent t.
Proof. unfold tent. rewrite Rabs_Ropp. reflexivity. Qed.
Lemma slope_odd t : t <> -1 -> t <> 0 -> t <> 1 -> slope (- t) = - slope t.
Proof.
  intros H1 H2 H3. unfold slope. repeat (destruct (Rlt_dec _ _); try lra).
Qed.
Section Mirror.
  Context (P : gridp R) (HP : proper P).
  Lemma mir_col k : ((k / nx P * nx P + (nx P - 1 - k mod nx P)) mod nx P = nx P - 1 - k mod nx P)%nat.
  Proof.
    destruct HP as (H & _). rewrite Nat.add_comm, Nat.mod_add by lia. apply Nat.mod_small. lia.
  Qed.
  Lemma mir_row k : ((k / nx P * nx P + (nx P - 1 - k mod nx P)) / nx P = k / nx P)%nat.
  Proof.
    destruct HP as (H & _). rewrite Nat.add_comm, Nat.div_add by lia. rewrite Nat.div_small by lia. lia.
  Qed.
  Lemma mir_lt k : (k < nx P * ny P)%nat -> (k / nx P * nx P + (nx P - 1 - k mod nx P) < nx P * ny P)%nat.
  Proof.
    intros Hk. destruct HP as (H & _). assert (k / nx P < ny P)%nat by (apply Nat.div_lt_upper_bound; lia). nia.
  Qed.
  Lemma mir_inj i j : (i / nx P * nx P + (nx P - 1 - i mod nx P) = j / nx P * nx P + (nx P - 1 - j mod nx P))%nat -> i = j.
  Proof.
    intros E. pose proof (f_equal (fun k => k mod nx P)%nat E) as E1. pose proof (f_equal (fun k => k / nx P)%nat E) as E2. cbv beta in E1, E2.
    rewrite !mir_col in E1. rewrite !mir_row in E2. destruct HP as (H & _).
    pose proof (Nat.mod_upper_bound i (nx P)). pose proof (Nat.mod_upper_bound j (nx P)).
    rewrite (Nat.div_mod_eq i (nx P)), (Nat.div_mod_eq j (nx P)), E2. lia.
  Qed.
  Lemma span : (INR (nx P) - 1) * cell_w P = x_M P - x_m P.
  Proof.
    destruct HP as (H & _). unfold cell_w. apply le_INR in H. cbn in H. field. lra.
  Qed.
  Lemma mir_node k : node_x P (y_node (mirror P) k) = x_m P + x_M P - node_x P k.
  Proof.
    unfold node_x, col. cbn [mirror y_node]. rewrite mir_col. destruct HP as (H & _).
    pose proof (Nat.mod_upper_bound k (nx P)). rewrite !minus_INR by lia. cbn [INR]. pose proof span. nra.
  Qed.
  Lemma mir_node_y k : node_y P (y_node (mirror P) k) = node_y P k.
  Proof. unfold node_y, row. cbn [mirror y_node]. rewrite mir_row. reflexivity. Qed.
  Lemma mir_tx x k : (vx (see_point (mirror P) x) - node_x P (y_node (mirror P) k)) / cell_w P = - ((vx x - node_x P k) / cell_w P).
  Proof. rewrite mir_node. cbn. unfold Rdiv. ring. Qed.
  Lemma mir_ty x k : (vy (see_point (mirror P) x) - node_y P (y_node (mirror P) k)) / cell_h P = (vy x - node_y P k) / cell_h P.
  Proof. rewrite mir_node_y. cbn. unfold Rdiv. ring. Qed.
  Lemma mir_hat x k : hat P (see_point (mirror P) x) (y_node (mirror P) k) = hat P x k.
  Proof. unfold hat. rewrite mir_tx, mir_ty, tent_even. reflexivity. Qed.
  Lemma off_kinks x k : in_dom P x -> off_lines P x -> let t := (vx x - node_x P k) / cell_w P in t <> -1 /\ t <> 0 /\ t <> 1.
  Proof.
    intros [[D1 D2] _] HO t. pose proof (cell_w_pos _ HP) as W. pose proof HP as (H & _).
    pose proof (Nat.mod_upper_bound k (nx P)) as HB. pose proof span as SP.
    assert (T : vx x = x_m P + (INR (col P k) + t) * cell_w P) by (unfold t, node_x; field; lra).
    repeat split; intros Z; rewrite Z in T.
    - destruct (col P k) as [|c] eqn:EC; [cbn in T; nra|]. apply (HO c); [unfold col in EC; lia|]. rewrite T, S_INR. ring.
    - apply (HO (col P k)); [unfold col; lia|]. rewrite T. ring.
    - destruct (Nat.eq_dec (col P k) (nx P - 1)) as [EC|EC].
      + rewrite EC, minus_INR in T by lia. cbn [INR] in T. nra.
      + apply (HO (Datatypes.S (col P k))); [unfold col in *; lia|]. rewrite T, S_INR. ring.
  Qed.
  Lemma mir_slopes x : in_dom P x -> off_lines P x -> same_slopes (mirror P) P P x.
  Proof.
    intros D HO a k Hk. destruct (off_kinks x k D HO) as (K1 & K2 & K3). cbn [y_axis mirror y_sign y_len].
    change (fun k => (k / nx P * nx P + (nx P - 1 - k mod nx P))%nat) with (y_node (mirror P)).
    destruct a; cbn [ghat]; rewrite ?mir_tx, ?mir_ty, ?tent_even, ?slope_odd by assumption; unfold Rdiv; rewrite ?Rinv_1; ring.
  Qed.
  Lemma mir_placed x : in_dom P x -> off_lines P x -> in_dom P (see_point (mirror P) x).
  Proof.
    intros [[A1 A2] [A3 A4]] HO. assert (N : vx x <> x_m P).
    { intros N. apply (HO 0%nat); [destruct HP; lia|]. rewrite N. cbn. ring. }
    unfold in_dom. cbn. unR. lra.
  Qed.
End Mirror.

(** The mirror image of a set-up runs as the mirror image of its run: positions, velocities, stresses and forces are reflected in
    the vertical line through the middle of the domain, as long as no point lies exactly on a vertical line of nodes. *)
Lemma p_C87_mirror : forall uf uf' fill fill' n (s s' : state R) tr tr', plain s -> plain s' ->
  pG (sP s') = pG (sP s) -> p_dt (sP s') = p_dt (sP s) -> p_Mtol (sP s') = p_Mtol (sP s) -> p_damping (sP s') = p_damping (sP s) ->
  roughness (pB (sP s')) = roughness (pB (sP s)) -> p_check (sP s') = p_check (sP s) ->
  (forall k, (k < nodes (pG (sP s)))%nat -> nth (y_node (mirror (pG (sP s))) k) (bv (sG s')) false = nth k (bv (sG s)) false /\
                                           nth (y_node (mirror (pG (sP s))) k) (bh (sG s')) false = nth k (bh (sG s)) false) ->
  (forall P, no_surface (sP s) (uf P)) -> (forall P, no_surface (sP s') (uf' P)) ->
  (forall j, ld_g (uf' (clock uf' j (sP s'))) = ld_g (uf (clock uf j (sP s))) /\
             ld_theta (uf' (clock uf' j (sP s'))) = - ld_theta (uf (clock uf j (sP s)))) ->
  bodies (sL s') = map (see (mirror (pG (sP s)))) (bodies (sL s)) ->
  during uf fill n s tr (fun x => placed (sP s) x /\ off_lines (pG (sP s)) x) ->
  exists z w z' w', after uf fill n s tr = Ok (z, w) /\ after uf' fill' n s' tr' = Ok (z', w') /\
  bodies (sL z') = map (see (mirror (pG (sP s)))) (bodies (sL z)).
Proof.
  intros uf uf' fill fill' n s s' tr tr' PL PL' EG ED ET EDa ER EC MM NS NS' LD EB HD. pose proof (pl_proper _ PL) as HP.
  apply p_C86_view; auto using mirror_fair.
  - intros j Hj. destruct (clock_grid uf j (sP s)) as (A1 & A2 & A3 & A4 & A5 & _), (clock_grid uf' j (sP s')) as (B1 & B2 & B3 & B4 & B5 & _).
    destruct (LD j) as [L1 L2]. constructor; unfold scheme_at, scheme_of, e_nodes; cbn [e_P e_dt e_tol e_damp e_open e_g].
    + intros f. rewrite A1, B1, EG. apply fsum_renumber; [intros; apply mir_lt; assumption|intros i k _ _; apply mir_inj; assumption].
    + rewrite A3, B3, ED. cbn. ring.
    + rewrite A4, B4, ET. cbn. ring.
    + rewrite A5, B5, EDa. reflexivity.
    + intros a k Hk. rewrite A1 in Hk. destruct (MM k Hk) as [M1 M2]. unfold passes. rewrite A2, B2, ER, M1, M2. reflexivity.
    + rewrite L1, L2, sin_neg, cos_neg. apply v3_ext. intros []; unfold see_vec, u_acc; cbn; field.
    + intros x k _. rewrite A1, B1, EG. apply mir_hat. exact HP.
  - intros j sj trj Hj E ph p A C. destruct (HD j sj trj Hj E ph p A C) as [[H1 H1'] H2]. split; [split; assumption|]. split.
    + split; [rewrite EG; apply mir_placed; assumption|]. rewrite EC. intros Q. cbn. rewrite (H1' Q). unR. ring.
    + rewrite EG. apply mir_slopes; assumption.
Qed.

(** ** C88: exchanging the axes *)
Definition flip (P : gridp R) : view :=
  mkView (fun a => match a with AX => AY | AY => AX | AZ => AZ end) (fun _ => 1) 1 1 1 v0
    (fun k => (k mod nx P * ny P + k / nx P)%nat).
Lemma flip_fair P : fair (flip P).
Proof. constructor; cbn; auto; try lra. intros []; auto. Qed.
(** The domain [P'] is [P] with x and y exchanged. *)
Definition flipped (P P' : gridp R) : Prop :=
  nx P' = ny P /\ ny P' = nx P /\ x_m P' = y_m P /\ x_M P' = y_M P /\ y_m P' = x_m P /\ y_M P' = x_M P.
Section Flip.
  Context (P P' : gridp R) (HP : proper P) (FL : flipped P P').
  Notation v := (fun k => (k mod nx P * ny P + k / nx P)%nat).
  Lemma flip_row_lt k : (k < nx P * ny P)%nat -> (k / nx P < ny P)%nat.
  Proof. destruct HP as (H & _). intros. apply Nat.div_lt_upper_bound; lia. Qed.
  Lemma flip_col k : (k < nx P * ny P)%nat -> (v k mod nx P' = k / nx P)%nat.
  Proof.
    intros Hk. destruct FL as (-> & _). pose proof (flip_row_lt k Hk). rewrite Nat.add_comm, Nat.mod_add by lia. apply Nat.mod_small. lia.
  Qed.
  Lemma flip_row k : (k < nx P * ny P)%nat -> (v k / nx P' = k mod nx P)%nat.
  Proof.
    intros Hk. destruct FL as (-> & _). pose proof (flip_row_lt k Hk). rewrite Nat.add_comm, Nat.div_add by lia. rewrite Nat.div_small by lia. reflexivity.
  Qed.
  Lemma flip_lt k : (k < nx P * ny P)%nat -> (v k < nx P * ny P)%nat.
  Proof.
    intros Hk. pose proof (flip_row_lt k Hk). destruct HP as (H2 & _). pose proof (Nat.mod_upper_bound k (nx P)). nia.
  Qed.
  Lemma flip_inj i j : (i < nx P * ny P)%nat -> (j < nx P * ny P)%nat -> v i = v j -> i = j.
  Proof.
    intros Hi Hj E. pose proof (f_equal (fun k => k mod nx P')%nat E) as E1. pose proof (f_equal (fun k => k / nx P')%nat E) as E2. cbv beta in E1, E2.
    rewrite !flip_col in E1 by assumption. rewrite !flip_row in E2 by assumption.
    rewrite (Nat.div_mod_eq i (nx P)), (Nat.div_mod_eq j (nx P)), E1, E2. reflexivity.
  Qed.
  Lemma flip_cw : cell_w P' = cell_h P.
  Proof. unfold cell_w, cell_h. destruct FL as (-> & _ & -> & -> & _). reflexivity. Qed.
  Lemma flip_ch : cell_h P' = cell_w P.
  Proof. unfold cell_w, cell_h. destruct FL as (_ & -> & _ & _ & -> & ->). reflexivity. Qed.
  Lemma flip_x k : (k < nx P * ny P)%nat -> node_x P' (y_node (flip P) k) = node_y P k.
  Proof. intros Hk. unfold node_x, node_y, col, row. cbn [flip y_node]. rewrite flip_col, flip_cw by exact Hk. destruct FL as (_ & _ & -> & _). reflexivity. Qed.
  Lemma flip_y k : (k < nx P * ny P)%nat -> node_y P' (y_node (flip P) k) = node_x P k.
  Proof. intros Hk. unfold node_x, node_y, col, row. cbn [flip y_node]. rewrite flip_row, flip_ch by exact Hk. destruct FL as (_ & _ & _ & _ & -> & _). reflexivity. Qed.
  Lemma flip_pt x : vx (see_point (flip P) x) = vy x /\ vy (see_point (flip P) x) = vx x /\ vz (see_point (flip P) x) = vz x.
  Proof. cbn. unR. repeat split; ring. Qed.
  Lemma flip_hat x k : (k < nx P * ny P)%nat -> hat P' (see_point (flip P) x) (y_node (flip P) k) = hat P x k.
  Proof.
    intros Hk. unfold hat. rewrite flip_x, flip_y, flip_cw, flip_ch by exact Hk. destruct (flip_pt x) as (-> & -> & _). ring.
  Qed.
  Lemma flip_slopes x : same_slopes (flip P) P P' x.
  Proof.
    intros a k Hk. destruct (flip_pt x) as (FX & FY & _). destruct a; cbn [y_axis flip y_sign y_len ghat];
    change (fun k => (k mod nx P * ny P + k / nx P)%nat) with (y_node (flip P)) in *.
    - rewrite FX, FY, flip_x, flip_y, flip_cw, flip_ch by exact Hk. unfold Rdiv. rewrite Rinv_1. ring.
    - rewrite FX, FY, flip_x, flip_y, flip_cw, flip_ch by exact Hk. unfold Rdiv. rewrite Rinv_1. ring.
    - ring.
  Qed.
  Lemma flip_dom x : in_dom P x -> in_dom P' (see_point (flip P) x).
  Proof. intros [A1 A2]. unfold in_dom. destruct (flip_pt x) as (-> & -> & _), FL as (_ & _ & -> & -> & -> & ->). split; assumption. Qed.
End Flip.

(** Nothing in a run distinguishes x from y but the walls and gravity: with the domain, the walls, gravity and the points
    exchanged, the run is the exchanged run. *)
Lemma p_C88_flip : forall uf uf' fill fill' n (s s' : state R) tr tr', plain s -> plain s' ->
  flipped (pG (sP s)) (pG (sP s')) -> p_dt (sP s') = p_dt (sP s) -> p_Mtol (sP s') = p_Mtol (sP s) -> p_damping (sP s') = p_damping (sP s) ->
  roughness (pB (sP s')) = roughness (pB (sP s)) -> p_check (sP s') = p_check (sP s) ->
  (forall k, (k < nodes (pG (sP s)))%nat -> nth (y_node (flip (pG (sP s))) k) (bv (sG s')) false = nth k (bh (sG s)) false /\
                                           nth (y_node (flip (pG (sP s))) k) (bh (sG s')) false = nth k (bv (sG s)) false) ->
  (forall P, no_surface (sP s) (uf P)) -> (forall P, no_surface (sP s') (uf' P)) ->
  (forall j, ld_g (uf' (clock uf' j (sP s'))) = ld_g (uf (clock uf j (sP s))) /\
             ld_theta (uf' (clock uf' j (sP s'))) = PI / 2 - ld_theta (uf (clock uf j (sP s)))) ->
  bodies (sL s') = map (see (flip (pG (sP s)))) (bodies (sL s)) ->
  during uf fill n s tr (placed (sP s)) ->
  exists z w z' w', after uf fill n s tr = Ok (z, w) /\ after uf' fill' n s' tr' = Ok (z', w') /\
  bodies (sL z') = map (see (flip (pG (sP s)))) (bodies (sL z)).
Proof.
  intros uf uf' fill fill' n s s' tr tr' PL PL' FL ED ET EDa ER EC MM NS NS' LD EB HD. pose proof (pl_proper _ PL) as HP.
  apply p_C86_view; auto using flip_fair.
  - intros j Hj. destruct (clock_grid uf j (sP s)) as (A1 & A2 & A3 & A4 & A5 & _), (clock_grid uf' j (sP s')) as (B1 & B2 & B3 & B4 & B5 & _).
    destruct (LD j) as [L1 L2]. constructor; unfold scheme_at, scheme_of, e_nodes; cbn [e_P e_dt e_tol e_damp e_open e_g].
    + intros f. rewrite A1, B1. pose proof FL as (N1 & N2 & _). rewrite N1, N2, Nat.mul_comm.
      apply fsum_renumber; [intros; apply flip_lt; assumption|intros i k Hi Hk; apply (flip_inj _ _ HP FL); assumption].
    + rewrite A3, B3, ED. cbn. ring.
    + rewrite A4, B4, ET. cbn. ring.
    + rewrite A5, B5, EDa. reflexivity.
    + intros a k Hk. rewrite A1 in Hk. destruct (MM k Hk) as [M1 M2]. unfold passes. rewrite A2, B2, ER, M1, M2. destruct a; reflexivity.
    + rewrite L1, L2, sin_shift, cos_shift. apply v3_ext. intros []; unfold see_vec, u_acc; cbn; field.
    + intros x k Hk. rewrite A1 in Hk. rewrite A1, B1. apply flip_hat; assumption.
  - intros j sj trj Hj E ph p A C. destruct (HD j sj trj Hj E ph p A C) as [H1 H2]. split; [split; assumption|]. split.
    + split; [apply flip_dom; assumption|]. rewrite EC. intros Q. destruct (flip_pt (pG (sP s)) (px p)) as (_ & _ & ->). apply H2. exact Q.
    + apply flip_slopes; assumption.
Qed.

(** ** Cases: the elastic pair of points in a box, seen in three ways *)
Local Instance eta_solid T : Settable (solid T) :=
  settable! (@mkSolid T) <s_rho; s_A; s_law; s_phi; s_K; s_G; s_k; s_s; s_beta; s_mu; s_mu_s; s_mu_v; s_mu_0; s_delta_mu; s_I_0;
    s_mu_1; s_mu_2; s_b; s_eta_max; s_rho_s; s_gamma_c; s_tau_0; s_t_star; s_E_0; s_nu; s_t_0; s_rho_f; s_packing; s_inlet_rate;
    s_yp; s_gap; s_has_iv; s_crit>.
Section Image.
  Context (y : view).
  Definition im_sol (S0 : solid R) : solid R :=
    S0 <| s_K := option_map (Rmult (u_stress y)) (s_K S0) |> <| s_G := option_map (Rmult (u_stress y)) (s_G S0) |>
       <| s_mu_s := option_map (Rmult (u_stress y * y_time y)) (s_mu_s S0) |> <| s_mu_v := option_map (Rmult (u_stress y * y_time y)) (s_mu_v S0) |>.
  Definition im_part (p : particle R) : particle R :=
    p <| px := see_point y (px p) |> <| pv := match pv p with Own w => Own (see_vec y (u_vel y) w) | Shared => Shared end |>
      <| pV := y_len y * y_len y * y_len y * pV p |> <| pm := y_mass y * pm p |> <| pb := see_vec y (u_acc y) (pb p) |>
      <| pstress := see_mat y (u_stress y) (pstress p) |> <| ppressure := u_stress y * ppressure p |>.
  Definition im_phase (ph : phase R) : phase R :=
    mkPhase (im_sol (ph_sol ph)) (ph_n ph) (see_vec y (u_vel y) (ph_sv ph)) (map im_part (ph_pts ph)).
  Lemma im_matter S0 : simple_laws [mkPhase S0 0 v0 []] -> matter_of (im_sol S0) = see_matter y (matter_of S0).
  Proof.
    intros H. destruct (H _ (or_introl eq_refl)) as [E|E]; cbn [ph_sol] in E; unfold matter_of; cbn [im_sol s_law set]; cbn; rewrite E; cbn;
    destruct (s_K S0), (s_G S0), (s_mu_s S0), (s_mu_v S0); cbn; rewrite ?Rmult_0_r; reflexivity.
  Qed.
  Lemma im_bodies L : simple_laws L -> bodies (map im_phase L) = map (see y) (bodies L).
  Proof.
    unfold bodies. generalize 0%nat. induction L as [|ph L IH]; intros k H; [reflexivity|]. cbn [map bodies_from]. rewrite map_app, IH by (intros q Hq; apply H; right; exact Hq).
    f_equal. unfold live. cbn [im_phase ph_n ph_pts]. rewrite firstn_map, !map_map. apply map_ext. intros p. unfold mp_of, see. cbn [im_phase ph_sol].
    rewrite (im_matter (ph_sol ph)) by (intros q [<-|[]]; cbn [ph_sol]; apply H; left; reflexivity).
    f_equal. unfold velocity. cbn. destruct (pv p); reflexivity.
  Qed.
  Lemma im_plain (s : state R) P' G' : plain s -> proper (pG P') -> grid_ok (pG P') G' -> shut P' -> no_rub (pB P') -> p_aniso P' = false ->
    p_dynamic P' = false -> p_tf P' <> 0 -> p_savetime P' <> 0 -> plain (mkState P' G' (map im_phase (sL s))).
  Proof.
    intros PL HP OK SH NRB AN DY TF SV. constructor; auto; cbn [sL].
    - intros ph Hph. apply in_map_iff in Hph. destruct Hph as (q & <- & Hq). cbn. rewrite map_length. apply (pl_count _ PL q Hq).
    - intros ph Hph. apply in_map_iff in Hph. destruct Hph as (q & <- & Hq). exact (pl_laws _ PL q Hq).
    - destruct (pl_equip _ PL) as (S0 & E & H). exists (im_sol S0). split.
      + destruct (sL s) as [|q L]; [discriminate|]. cbn in *. injection E as E. rewrite E. reflexivity.
      + intros ph Hph. apply in_map_iff in Hph. destruct Hph as (q & <- & Hq). specialize (H q Hq). pose proof (pl_laws _ PL q Hq) as Lq.
        unfold equipped in *. cbn [im_phase ph_sol]. change (s_law (im_sol (ph_sol q))) with (s_law (ph_sol q)).
        destruct Lq as [Lq|Lq]; rewrite Lq in *; cbn; unfold has in *; destruct (s_K (ph_sol q)), (s_G (ph_sol q)), (s_mu_s (ph_sol q)), (s_mu_v (ph_sol q)); firstorder (eauto; discriminate).
    - intros ph p Hph Hp. apply in_map_iff in Hph. destruct Hph as (q & <- & Hq). unfold live in Hp. cbn in Hp. rewrite firstn_map in Hp.
      apply in_map_iff in Hp. destruct Hp as (r & <- & Hr). destruct (pl_own _ PL q r Hq Hr) as [w E]. cbn. rewrite E. eexists. reflexivity.
  Qed.
End Image.
Lemma init_masks P B (G : grid R) : grid_init P B = Ok G -> bv G = boundary_v P B /\ bh G = boundary_h P B.
Proof.
  unfold grid_init. destruct (nth_res _ 1); [|discriminate]. cbn [bind]. destruct (nth_res _ 0); [|discriminate]. cbn [bind].
  destruct (nth_res _ 1); [|discriminate]. cbn [bind]. destruct (nth_res _ 0); [|discriminate]. cbn [bind]. intros E. injection E as <-. split; reflexivity.
Qed.
Definition vw_state (G : grid R) : state R := mkState (ex_params ex_box) G (ex_L Elastic).
Lemma vw_plain G : grid_ok ex_gridp G -> plain (vw_state G).
Proof.
  intros OK. constructor; try assumption; try reflexivity; try (cbn; lra).
  - exact ex_proper.
  - intros ph [<-|[]]. reflexivity.
  - intros ph [<-|[]]. left. reflexivity.
  - eexists. split; [reflexivity|]. intros ph [<-|[]]. cbn. split; discriminate.
  - intros ph p [<-|[]] [<-|[<-|[]]]; eexists; reflexivity.
  - repeat split; reflexivity.
  - left. reflexivity.
Qed.
Lemma during_1 uf fill (s : state R) tr Q : all_live (sL s) (fun _ p => Q (px p)) -> during uf fill 1 s tr Q.
Proof. intros H j sj trj Hj E. replace j with 0%nat in E by lia. injection E as <- _. exact H. Qed.
Lemma vw_placed G : all_live (sL (vw_state G)) (fun _ p => placed (sP (vw_state G)) (px p)).
Proof. intros ph p [<-|[]] [<-|[<-|[]]]; (split; [unfold in_dom; cbn; unR; lra|discriminate]). Qed.

(** The pair in units in which lengths are 2, masses 5 and times 3 times as big. *)
Example x_C86_units : forall fill fill', exists s s' : state R, plain s /\ plain s' /\ rescaled 2 5 3 (sP s) (sP s') /\ bv (sG s') = bv (sG s) /\ bh (sG s') = bh (sG s) /\
  (exists k, nth k (bv (sG s)) false = true) /\
  bodies (sL s') = map (see (unit_view 2 5 3)) (bodies (sL s)) /\ (length (bodies (sL s)) = 2)%nat /\ during fall_loads fill 1 s [] (placed (sP s)) /\
  exists z w z' w', after fall_loads fill 1 s [] = Ok (z, w) /\ after (fun _ => mkLoads (2 / 9 * -10) (1/2) 0 0) fill' 1 s' [] = Ok (z', w') /\
  bodies (sL z') = map (see (unit_view 2 5 3)) (bodies (sL z)).
Proof.
  intros fill fill'. destruct (grid_init_ok ex_gridp ex_box ex_proper) as (G & EG & OK).
  set (g' := mkGridp 0 6 0 4 4 3 (Some 2) (Some 2) 1 2 [1; 2] (Some 1) None : gridp R).
  assert (HP' : proper g') by (unfold proper; cbn; repeat split; try lia; lra).
  destruct (grid_init_ok g' ex_box HP') as (G' & EG' & OK').
  set (P' := ex_params (T := R) ex_box <| pG := g' |> <| p_dt := 3 * (1 / 10) |> <| p_Mtol := 5 * (1 / 1000) |>).
  set (s := vw_state G). set (s' := mkState P' G' (map (im_phase (unit_view 2 5 3)) (sL s))). exists s, s'.
  pose proof (vw_plain G OK) as PL.
  assert (PL' : plain s').
  { apply im_plain; try assumption; try reflexivity; try (cbn; lra); [repeat split; reflexivity|left; reflexivity]. }
  assert (RS : rescaled 2 5 3 (sP s) (sP s')) by (constructor; cbn; unR; (reflexivity || lra)).
  destruct (init_masks _ _ _ EG) as [MV MH], (init_masks _ _ _ EG') as [MV' MH'].
  assert (EV : bv (sG s') = bv (sG s)) by (cbn [sG s s' vw_state]; rewrite MV, MV'; reflexivity).
  assert (EH : bh (sG s') = bh (sG s)) by (cbn [sG s s' vw_state]; rewrite MH, MH'; reflexivity).
  assert (EB : bodies (sL s') = map (see (unit_view 2 5 3)) (bodies (sL s))) by (apply im_bodies, (pl_laws _ PL)).
  assert (DU : during fall_loads fill 1 s [] (placed (sP s))) by (apply during_1, vw_placed).
  do 5 (split; [assumption|]). split; [exists 0%nat; cbn [sG s vw_state]; rewrite MV; reflexivity|]. split; [assumption|]. split; [reflexivity|]. split; [assumption|].
  eapply (p_C86_units 2 5 3); try eassumption; try lra; try (intros; split; reflexivity).
  intros j. split; [cbn; lra|reflexivity].
Qed.

(** The pair of points and its mirror image. *)
Example x_C87_mirror : forall fill fill', exists s s' : state R, plain s /\ plain s' /\ pG (sP s') = pG (sP s) /\
  (exists k, nth k (bv (sG s)) false = true) /\
  (forall k, (k < nodes (pG (sP s)))%nat -> nth (y_node (mirror (pG (sP s))) k) (bv (sG s')) false = nth k (bv (sG s)) false /\
                                           nth (y_node (mirror (pG (sP s))) k) (bh (sG s')) false = nth k (bh (sG s)) false) /\
  bodies (sL s') = map (see (mirror (pG (sP s)))) (bodies (sL s)) /\ (length (bodies (sL s)) = 2)%nat /\
  during fall_loads fill 1 s [] (fun x => placed (sP s) x /\ off_lines (pG (sP s)) x) /\
  exists z w z' w', after fall_loads fill 1 s [] = Ok (z, w) /\ after (fun _ => mkLoads (-10) (-(1/2)) 0 0) fill' 1 s' [] = Ok (z', w') /\
  bodies (sL z') = map (see (mirror (pG (sP s)))) (bodies (sL z)).
Proof.
  intros fill fill'. destruct (grid_init_ok ex_gridp ex_box ex_proper) as (G & EG & OK).
  set (s := vw_state G). set (s' := mkState (sP s) G (map (im_phase (mirror ex_gridp)) (sL s))). exists s, s'.
  pose proof (vw_plain G OK) as PL.
  assert (PL' : plain s').
  { apply im_plain; try assumption; try reflexivity; try (cbn; lra); [exact ex_proper|repeat split; reflexivity|left; reflexivity]. }
  destruct (init_masks _ _ _ EG) as [MV MH].
  assert (MM : forall k, (k < nodes (pG (sP s)))%nat -> nth (y_node (mirror (pG (sP s))) k) (bv (sG s')) false = nth k (bv (sG s)) false /\
                                           nth (y_node (mirror (pG (sP s))) k) (bh (sG s')) false = nth k (bh (sG s)) false).
  { cbn [sG s s' vw_state]. rewrite MV, MH. intros k Hk. change (nodes (pG (sP s))) with 12%nat in Hk.
    do 12 (destruct k as [|k]; [split; reflexivity|]). lia. }
  assert (EB : bodies (sL s') = map (see (mirror (pG (sP s)))) (bodies (sL s))) by (apply im_bodies, (pl_laws _ PL)).
  assert (DU : during fall_loads fill 1 s [] (fun x => placed (sP s) x /\ off_lines (pG (sP s)) x)).
  { apply during_1. intros ph p A B. split; [exact (vw_placed G ph p A B)|].
    assert (CW : cell_w (pG (sP s)) = 1) by (unfold cell_w; cbn; lra).
    intros c Hc. rewrite CW. change (nx (pG (sP s))) with 4%nat in Hc. change (x_m (pG (sP s))) with 0.
    assert (I0 : c = 0%nat \/ c = 1%nat \/ c = 2%nat \/ c = 3%nat) by lia. destruct A as [<-|[]], B as [<-|[<-|[]]];
    destruct I0 as [-> | [-> | [-> | ->]]]; cbn; unR; lra. }
  split; [assumption|]. split; [assumption|]. split; [reflexivity|]. split; [exists 0%nat; cbn [sG s vw_state]; rewrite MV; reflexivity|].
  split; [assumption|]. split; [assumption|]. split; [reflexivity|]. split; [assumption|].
  eapply p_C87_mirror; try eassumption; try reflexivity; try (intros; split; reflexivity).
Qed.

(** The pair of points with x and y exchanged. *)
Example x_C88_flip : forall fill fill', exists s s' : state R, plain s /\ plain s' /\ flipped (pG (sP s)) (pG (sP s')) /\
  (exists k, nth k (bv (sG s)) false = true) /\
  (forall k, (k < nodes (pG (sP s)))%nat -> nth (y_node (flip (pG (sP s))) k) (bv (sG s')) false = nth k (bh (sG s)) false /\
                                           nth (y_node (flip (pG (sP s))) k) (bh (sG s')) false = nth k (bv (sG s)) false) /\
  bodies (sL s') = map (see (flip (pG (sP s)))) (bodies (sL s)) /\ (length (bodies (sL s)) = 2)%nat /\
  during fall_loads fill 1 s [] (placed (sP s)) /\
  exists z w z' w', after fall_loads fill 1 s [] = Ok (z, w) /\ after (fun _ => mkLoads (-10) (PI / 2 - 1/2) 0 0) fill' 1 s' [] = Ok (z', w') /\
  bodies (sL z') = map (see (flip (pG (sP s)))) (bodies (sL z)).
Proof.
  intros fill fill'. destruct (grid_init_ok ex_gridp ex_box ex_proper) as (G & EG & OK).
  set (g' := mkGridp 0 2 0 3 3 4 (Some 1) (Some 1) 1 2 [1; 2] (Some 1) None : gridp R).
  assert (HP' : proper g') by (unfold proper; cbn; repeat split; try lia; lra).
  destruct (grid_init_ok g' ex_box HP') as (G' & EG' & OK').
  set (P' := ex_params (T := R) ex_box <| pG := g' |>).
  set (s := vw_state G). set (s' := mkState P' G' (map (im_phase (flip ex_gridp)) (sL s))). exists s, s'.
  pose proof (vw_plain G OK) as PL.
  assert (PL' : plain s').
  { apply im_plain; try assumption; try reflexivity; try (cbn; lra); [repeat split; reflexivity|left; reflexivity]. }
  destruct (init_masks _ _ _ EG) as [MV MH], (init_masks _ _ _ EG') as [MV' MH'].
  assert (FL : flipped (pG (sP s)) (pG (sP s'))) by (repeat split; reflexivity).
  assert (MM : forall k, (k < nodes (pG (sP s)))%nat -> nth (y_node (flip (pG (sP s))) k) (bv (sG s')) false = nth k (bh (sG s)) false /\
                                           nth (y_node (flip (pG (sP s))) k) (bh (sG s')) false = nth k (bv (sG s)) false).
  { cbn [sG s s' vw_state]. rewrite MV, MH, MV', MH'. intros k Hk. change (nodes (pG (sP s))) with 12%nat in Hk.
    do 12 (destruct k as [|k]; [split; reflexivity|]). lia. }
  assert (EB : bodies (sL s') = map (see (flip (pG (sP s)))) (bodies (sL s))) by (apply im_bodies, (pl_laws _ PL)).
  assert (DU : during fall_loads fill 1 s [] (placed (sP s))) by (apply during_1, vw_placed).
  split; [assumption|]. split; [assumption|]. split; [assumption|]. split; [exists 0%nat; cbn [sG s vw_state]; rewrite MV; reflexivity|].
  split; [assumption|]. split; [assumption|]. split; [reflexivity|]. split; [assumption|].
  eapply p_C88_flip; try eassumption; try reflexivity; try (intros; split; reflexivity).
Qed.
