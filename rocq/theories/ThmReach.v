(** * How far a change can be felt: C106. *)
From Coq Require Import ZArith Reals List Bool Arith Lra Lia.
From Verif Require Import State NumR Spec SpecLaws SpecStep SpecScheme SpecLocal LibList LibR ModelGrid ModelConstit ModelParticle ModelMPList
  ModelIntegr ModelMain ProofsGrid ProofsMap ProofsP2G ProofsWalls ProofsLaws ProofsInOut ProofsHist Concrete
  ThmMapping ThmWalls ThmLaws ThmInOut ThmHist ProofsStep ProofsPoints ThmStep ThmBalance ThmEnergy ThmFall ThmGeo ProofsScheme ThmScheme ProofsLocal ThmLocal ThmApart ThmAlone.
Import ListNotations.
Local Open Scope R_scope.

(** Less than [c] cells apart along both axes. *)
Definition near (P : gridp R) (c : R) (x y : V3 R) : bool :=
  if Rlt_dec (Rabs (vx x - vx y)) (c * cell_w P) then if Rlt_dec (Rabs (vy x - vy y)) (c * cell_h P) then true else false else false.
Lemma near_iff P c x y : near P c x y = true <-> Rabs (vx x - vx y) < c * cell_w P /\ Rabs (vy x - vy y) < c * cell_h P.
Proof.
  unfold near. destruct (Rlt_dec (Rabs (vx x - vx y)) (c * cell_w P)), (Rlt_dec (Rabs (vy x - vy y)) (c * cell_h P)); split; intros H; try discriminate; try tauto.
Qed.
Lemma near_sym P c x y : near P c x y = true -> near P c y x = true.
Proof. rewrite !near_iff. rewrite (Rabs_minus_sym (vx y)), (Rabs_minus_sym (vy y)). auto. Qed.
Lemma near_trans P c d x y z : near P c x y = true -> near P d y z = true -> near P (c + d) x z = true.
Proof.
  rewrite !near_iff. intros [A B] [C D]. pose proof (Rabs_triang (vx x - vx y) (vx y - vx z)). pose proof (Rabs_triang (vy x - vy y) (vy y - vy z)).
  replace (vx x - vx y + (vx y - vx z)) with (vx x - vx z) in * by ring. replace (vy x - vy y + (vy y - vy z)) with (vy x - vy z) in * by ring. split; lra.
Qed.
Lemma near_le P c d x y : 0 < cell_w P -> 0 < cell_h P -> c <= d -> near P c x y = true -> near P d x y = true.
Proof. intros W H L. rewrite !near_iff. intros [A B]. split; [apply Rlt_le_trans with (1 := A)|apply Rlt_le_trans with (1 := B)]; apply Rmult_le_compat_r; lra. Qed.
(** The points of a cloud less than [c] cells away from a place, in their order. *)
Definition around (P : gridp R) (c : R) (x : V3 R) (B : list point) : list point := filter (fun q => near P c x (z_x q)) B.

Lemma filter_filter {A} (f g : A -> bool) l : (forall a, f a = true -> g a = true) -> filter f (filter g l) = filter f l.
Proof.
  intros H. induction l as [|a l IH]; [reflexivity|]. cbn. destruct (g a) eqn:G; cbn; rewrite IH; [reflexivity|].
  destruct (f a) eqn:F; [rewrite (H a F) in G; discriminate|reflexivity].
Qed.
Lemma filter_map_skip {A B} (f : B -> bool) (g : A -> bool) (h : A -> B) l : (forall a, In a l -> f (h a) = true -> g a = true) ->
  filter f (map h l) = filter f (map h (filter g l)).
Proof.
  intros H. induction l as [|a l IH]; [reflexivity|]. cbn. assert (IH' := IH (fun b Hb => H b (or_intror Hb))). destruct (g a) eqn:G; cbn; rewrite IH'; [reflexivity|].
  destruct (f (h a)) eqn:F; [rewrite (H a (or_introl eq_refl) F) in G; discriminate|reflexivity].
Qed.
Lemma Rsum_filter {A} (f : A -> R) (g : A -> bool) l : (forall a, In a l -> g a = false -> f a = 0) -> Rsum (map f l) = Rsum (map f (filter g l)).
Proof.
  intros H. induction l as [|a l IH]; [reflexivity|]. assert (IH' := IH (fun b Hb => H b (or_intror Hb))). change (Rsum (map f (a :: l))) with (f a + Rsum (map f l)). cbn [filter]. rewrite IH'.
  destruct (g a) eqn:G; [reflexivity|]. rewrite (H a (or_introl eq_refl) G). ring.
Qed.

Section Reach.
  Context (E : ambient).
  Let P := a_P E.
  Context (HP : proper P).
  (** Two points that a node sees are near. *)
  Lemma seen_near x y k : ~ dark E x k -> dark E y k \/ near P 2 x y = true.
  Proof.
    intros N. destruct (dark_dec E y k) as [Y|Y]; [left; exact Y|right]. apply near_iff.
    assert (F : ~ far P x y) by (intros F; destruct (far_dark E HP _ _ k F); contradiction).
    unfold far in F. split; apply Rnot_le_lt; tauto.
  Qed.
  Lemma around_less c d x y B B' : near P d x y = true -> around P (d + c) x B = around P (d + c) x B' -> around P c y B = around P c y B'.
  Proof.
    intros N H. unfold around in *.
    rewrite <- (filter_filter (fun q => near P c y (z_x q)) (fun q => near P (d + c) x (z_x q)) B) by (intros q Hq; apply (near_trans P d c x y _ N Hq)).
    rewrite <- (filter_filter (fun q => near P c y (z_x q)) (fun q => near P (d + c) x (z_x q)) B') by (intros q Hq; apply (near_trans P d c x y _ N Hq)).
    rewrite H. reflexivity.
  Qed.
  Lemma near_self c x : 0 < c -> near P c x x = true.
  Proof.
    intros H. apply near_iff. pose proof (cell_w_pos P HP). pose proof (cell_h_pos P HP). rewrite !Rminus_diag_eq, Rabs_R0 by reflexivity.
    split; apply Rmult_lt_0_compat; assumption.
  Qed.
  Lemma around_le c d x B B' : c <= d -> around P d x B = around P d x B' -> around P c x B = around P c x B'.
  Proof.
    intros L H. unfold around in *. pose proof (cell_w_pos P HP). pose proof (cell_h_pos P HP).
    rewrite <- (filter_filter (fun q => near P c x (z_x q)) (fun q => near P d x (z_x q)) B) by (intros q Hq; apply near_le with c; assumption).
    rewrite <- (filter_filter (fun q => near P c x (z_x q)) (fun q => near P d x (z_x q)) B') by (intros q Hq; apply near_le with c; assumption).
    rewrite H. reflexivity.
  Qed.

  Context (B B' : list point).
  (** Sums that see a node, taken over the points around. *)
  Lemma seen_sum (f : point -> R) x k B0 : ~ dark E x k -> (forall q, dark E (z_x q) k -> f q = 0) -> Rsum (map f B0) = Rsum (map f (around P 2 x B0)).
  Proof.
    intros N H. apply Rsum_filter. intros q _ Hq. apply H. destruct (seen_near x (z_x q) k N) as [Y|Y]; [exact Y|rewrite Y in Hq; discriminate].
  Qed.
  Lemma seen_mass x k : around P 2 x B = around P 2 x B' -> ~ dark E x k -> z_mass E B k = z_mass E B' k.
  Proof.
    intros H N. unfold z_mass. rewrite (seen_sum _ x k B N), (seen_sum _ x k B' N), H; [reflexivity| |]; intros q [Hq _]; rewrite Hq; ring.
  Qed.
  Lemma seen_vel x a k : around P 2 x B = around P 2 x B' -> ~ dark E x k -> z_vel E B a k = z_vel E B' a k.
  Proof.
    intros H N. unfold z_vel. rewrite (seen_mass x k H N). rewrite (seen_sum _ x k B N), (seen_sum _ x k B' N), H; [reflexivity| |]; intros q [Hq _]; rewrite Hq; ring.
  Qed.
  Lemma seen_strain q : around P 2 (z_x q) B = around P 2 (z_x q) B' -> z_strain E B q = z_strain E B' q.
  Proof.
    intros H. assert (K : forall a b, a_dt E * fsum (a_nodes E) (fun k => (z_vel E B a k * ghat (a_P E) (z_x q) b k + z_vel E B b k * ghat (a_P E) (z_x q) a k) / 2)
      = a_dt E * fsum (a_nodes E) (fun k => (z_vel E B' a k * ghat (a_P E) (z_x q) b k + z_vel E B' b k * ghat (a_P E) (z_x q) a k) / 2)).
    { intros a b. f_equal. apply fsum_ext. intros k _. destruct (dark_dec E (z_x q) k) as [[_ G]|Y].
      - rewrite !G. lra.
      - rewrite !(seen_vel (z_x q) _ k H Y). reflexivity. }
    unfold z_strain, m3. rewrite !K. reflexivity.
  Qed.
  Lemma seen_strained q : around P 2 (z_x q) B = around P 2 (z_x q) B' -> z_strained E B q = z_strained E B' q.
  Proof. intros H. unfold z_strained. rewrite (seen_strain q H). reflexivity. Qed.
  Lemma seen_acc x a k : around P 4 x B = around P 4 x B' -> ~ dark E x k ->
    z_acc E B (map (z_strained E B) B) a k = z_acc E B' (map (z_strained E B') B') a k.
  Proof.
    intros H N. assert (H2 : around P 2 x B = around P 2 x B') by (apply around_le with 4; [lra|exact H]).
    unfold z_acc. rewrite (seen_mass x k H2 N). unfold z_force. rewrite !map_map.
    set (c := fun q1 => z_m q1 * comp a (z_b q1) * hat (a_P E) (z_x q1) k - z_V q1 * over (fun b => el a b (z_s q1) * ghat (a_P E) (z_x q1) b k)).
    assert (Z : forall q1, dark E (z_x q1) k -> c q1 = 0).
    { intros q1 [K1 K2]. unfold c. unfold over. rewrite K1, !K2. ring. }
    change (Rsum (map (fun q => z_m (z_strained E B q) * comp a (z_b (z_strained E B q)) * hat (a_P E) (z_x (z_strained E B q)) k -
              z_V (z_strained E B q) * over (fun b => el a b (z_s (z_strained E B q)) * ghat (a_P E) (z_x (z_strained E B q)) b k)) B)) with (Rsum (map (fun q => c (z_strained E B q)) B)).
    change (Rsum (map (fun q => z_m (z_strained E B' q) * comp a (z_b (z_strained E B' q)) * hat (a_P E) (z_x (z_strained E B' q)) k -
              z_V (z_strained E B' q) * over (fun b => el a b (z_s (z_strained E B' q)) * ghat (a_P E) (z_x (z_strained E B' q)) b k)) B')) with (Rsum (map (fun q => c (z_strained E B' q)) B')).
    rewrite (seen_sum (fun q => c (z_strained E B q)) x k B N), (seen_sum (fun q => c (z_strained E B' q)) x k B' N), H2 by (intros q Hq; apply Z; exact Hq).
    rewrite (Rsum_ext _ (fun q => c (z_strained E B' q)) (around P 2 x B')); [reflexivity|].
    intros q Hq. apply filter_In in Hq as [_ Hq]. rewrite (seen_strained q); [reflexivity|]. apply around_less with (1 := Hq). replace (2 + 2) with 4 by ring. exact H.
  Qed.
  Lemma seen_end x a k : around P 4 x B = around P 4 x B' -> ~ dark E x k ->
    z_end E B (map (z_strained E B) B) a k = z_end E B' (map (z_strained E B') B') a k.
  Proof.
    intros H N. assert (H2 : around P 2 x B = around P 2 x B') by (apply around_le with 4; [lra|exact H]).
    unfold z_end. rewrite (seen_mass x k H2 N), (seen_vel x a k H2 N), (seen_acc x a k H N). reflexivity.
  Qed.
  (** The state a step gives to a point. *)
  Definition z_next (B0 : list point) (q : point) : point := z_moved E B0 (map (z_strained E B0) B0) (z_strained E B0 q).
  Lemma z_step_next B0 : z_step E B0 = map (z_next B0) B0.
  Proof. unfold z_step. rewrite map_map. reflexivity. Qed.
  (** A step of a point depends on the points less than four cells away. *)
  Lemma seen_next q : around P 4 (z_x q) B = around P 4 (z_x q) B' -> z_next B q = z_next B' q.
  Proof.
    intros H. assert (H2 : around P 2 (z_x q) B = around P 2 (z_x q) B') by (apply around_le with 4; [lra|exact H]).
    unfold z_next. rewrite (seen_strained q H2). set (q1 := z_strained E B' q). assert (X : z_x q1 = z_x q) by reflexivity.
    assert (K : forall f g, (forall k, ~ dark E (z_x q) k -> f k = g k) -> fsum (a_nodes E) (fun k => hat (a_P E) (z_x q1) k * f k) = fsum (a_nodes E) (fun k => hat (a_P E) (z_x q1) k * g k)).
    { intros f g F. apply fsum_ext. intros k _. rewrite X. destruct (dark_dec E (z_x q) k) as [[G _]|Y]; [rewrite G; ring|rewrite (F k Y); reflexivity]. }
    assert (K1 : forall a, _) by exact (fun a => K _ _ (fun k N => seen_end (z_x q) a k H N)).
    assert (K2 : forall a, _) by exact (fun a => K _ _ (fun k N => seen_acc (z_x q) a k H N)).
    assert (K3 : z_dense E B (z_x q1) (z_stuff q1) = z_dense E B' (z_x q1) (z_stuff q1)).
    { unfold z_dense. rewrite (K (z_rho E B) (z_rho E B')); [reflexivity|]. intros k N. unfold z_rho. rewrite (seen_mass (z_x q) k H2 N). reflexivity. }
    unfold z_moved, v3. rewrite !K1, !K2, K3. reflexivity.
  Qed.
  (** No point moves a cell or more. *)
  Definition hops (B0 : list point) : Prop := forall q, In q B0 -> near P 1 (z_x q) (z_x (z_next B0 q)) = true.
  Lemma seen_step c x : hops B -> hops B' -> around P (c + 5) x B = around P (c + 5) x B' -> around P c x (z_step E B) = around P c x (z_step E B').
  Proof.
    intros M M' H. rewrite !z_step_next. unfold around.
    rewrite (filter_map_skip _ (fun q => near P (c + 1) x (z_x q)) (z_next B) B), (filter_map_skip _ (fun q => near P (c + 1) x (z_x q)) (z_next B') B').
    - fold (around P (c + 1) x B). fold (around P (c + 1) x B'). f_equal.
      assert (H1 : around P (c + 1) x B = around P (c + 1) x B') by (apply around_le with (c + 5); [lra|exact H]). rewrite H1.
      apply map_ext_in. intros q Hq. apply filter_In in Hq as [_ Hq]. apply seen_next. apply around_less with (1 := Hq). replace (c + 1 + 4) with (c + 5) by ring. exact H.
    - intros q Hq N. apply (near_trans P c 1 x _ _ N). apply near_sym, M', Hq.
    - intros q Hq N. apply (near_trans P c 1 x _ _ N). apply near_sym, M, Hq.
  Qed.
End Reach.

(** In [n] steps no point moves a cell or more at once. *)
Definition hopping (uf : params R -> loads R) rho n (P : params R) G B : Prop :=
  forall j, (j < n)%nat -> Forall2 (fun q q' => near (pG P) 1 (z_x q) (z_x q') = true) (z_run uf rho j P G B) (z_run uf rho (Datatypes.S j) P G B).
Lemma Forall2_map_in {A B} (R1 : A -> B -> Prop) (f : A -> B) l : Forall2 R1 l (map f l) -> forall a, In a l -> R1 a (f a).
Proof. induction l as [|a l IH]; intros H b []; inversion H; subst; auto. Qed.
Lemma reach_run uf rho : forall n (P : params R) G B B' c x, proper (pG P) -> hopping uf rho n P G B -> hopping uf rho n P G B' ->
  around (pG P) (c + 5 * INR n) x B = around (pG P) (c + 5 * INR n) x B' ->
  around (pG P) c x (z_run uf rho n P G B) = around (pG P) c x (z_run uf rho n P G B').
Proof.
  induction n as [|n IH]; intros P G B B' c x HP M M' H.
  - cbn [INR] in H. replace (c + 5 * 0) with c in H by ring. exact H.
  - cbn [z_run]. set (E := ambient_of P rho (uf P) G).
    assert (MM : forall B0, hopping uf rho (Datatypes.S n) P G B0 -> hops E B0 /\ hopping uf rho n (ticked uf P) G (z_step E B0)).
    { intros B0 M0. split.
      - pose proof (M0 0%nat ltac:(lia)) as K. cbn [z_run] in K. rewrite (z_step_next E) in K. exact (Forall2_map_in _ _ _ K).
      - intros j Hj. exact (M0 (Datatypes.S j) ltac:(lia)). }
    destruct (MM B M) as [A1 A2]. destruct (MM B' M') as [A1' A2'].
    apply (IH (ticked uf P)); [exact HP|exact A2|exact A2'|].
    apply (seen_step E HP); [exact A1|exact A1'|]. rewrite S_INR in H. replace (c + 5 * INR n + 5) with (c + 5 * (INR n + 1)) by ring. exact H.
Qed.

(** A run of the code of [n] passes, in the domain, in which no point moves a cell or more in one pass. *)
Definition paced uf fill n (s : state R) tr : Prop :=
  forall j, (j < n)%nat -> exists s1 tr1 s2 tr2, after uf fill j s tr = Ok (s1, tr1) /\ after uf fill (Datatypes.S j) s tr = Ok (s2, tr2) /\
    Forall (fun q => in_dom (pG (sP s)) (z_x q)) (cloud (sP s) (sL s1)) /\
    Forall2 (fun q q' => near (pG (sP s)) 1 (z_x q) (z_x q') = true) (cloud (sP s) (sL s1)) (cloud (sP s) (sL s2)).
Lemma paced_along uf fill n (s : state R) tr S0 : whole s -> sol0 (sL s) = Ok S0 -> paced uf fill n s tr ->
  hopping uf (s_rho S0) n (sP s) (sG s) (cloud (sP s) (sL s)) /\
  exists s' tr', after uf fill n s tr = Ok (s', tr') /\ cloud (sP s) (sL s') = z_run uf (s_rho S0) n (sP s) (sG s) (cloud (sP s) (sL s)).
Proof.
  intros HW H0 HI.
  assert (HI' : forall j, (j <= n)%nat -> exists s' tr', after uf fill j s tr = Ok (s', tr') /\
     ((j < n)%nat -> Forall (fun q => in_dom (pG (sP s)) (z_x q)) (cloud (sP s) (sL s')))).
  { intros j Hj. destruct (Nat.eq_dec j n) as [->|N].
    - destruct n as [|n]; [exists s, tr; split; [reflexivity|lia]|]. destruct (HI n ltac:(lia)) as (s1 & tr1 & s2 & tr2 & _ & E & _). exists s2, tr2. split; [exact E|lia].
    - destruct (HI j ltac:(lia)) as (s1 & tr1 & s2 & tr2 & E & _ & F & _). exists s1, tr1. auto. }
  assert (K := along uf fill n s tr S0 HW H0 HI'). split; [|exact (K n (le_n n))].
  intros j Hj. destruct (HI j Hj) as (s1 & tr1 & s2 & tr2 & E1 & E2 & _ & F).
  destruct (K j ltac:(lia)) as (s1' & tr1' & E1' & C1). rewrite E1 in E1'. injection E1' as <- <-.
  destruct (K (Datatypes.S j) ltac:(lia)) as (s2' & tr2' & E2' & C2). rewrite E2 in E2'. injection E2' as <- <-.
  rewrite C1, C2 in F. exact F.
Qed.

(** A change is felt at most five cells further after every pass: if two simulations start with the same points within
    [c + 5 n] cells of a place, then after [n] passes they have the same points, in the same state, within [c] cells of it. *)
Lemma p_C106_reach : forall uf fill n (s s1 : state R) tr tr1 S0 S1 c x, whole s -> whole s1 -> sP s1 = sP s -> sG s1 = sG s ->
  sol0 (sL s) = Ok S0 -> sol0 (sL s1) = Ok S1 -> s_rho S1 = s_rho S0 ->
  paced uf fill n s tr -> paced uf fill n s1 tr1 ->
  around (pG (sP s)) (c + 5 * INR n) x (cloud (sP s) (sL s)) = around (pG (sP s)) (c + 5 * INR n) x (cloud (sP s) (sL s1)) ->
  exists s' tr' s1' tr1', after uf fill n s tr = Ok (s', tr') /\ after uf fill n s1 tr1 = Ok (s1', tr1') /\
    around (pG (sP s)) c x (cloud (sP s) (sL s')) = around (pG (sP s)) c x (cloud (sP s) (sL s1')).
Proof.
  intros uf fill n s s1 tr tr1 S0 S1 c x HW HW1 EP EG H0 H1 ER HI HI1 HC.
  destruct (paced_along uf fill n s tr S0 HW H0 HI) as (M & s' & tr' & E & C).
  destruct (paced_along uf fill n s1 tr1 S1 HW1 H1 HI1) as (M1 & s1' & tr1' & E1 & C1). rewrite EP, EG, ER in *.
  exists s', tr', s1', tr1'. split; [exact E|]. split; [exact E1|]. rewrite C, C1. apply reach_run; [exact (wh_proper _ HW)|exact M|exact M1|exact HC].
Qed.

(** The example: a body at rest and an intruder far away. *)
Lemma z3_zero (f : axis -> R) : (forall a, f a = 0) -> v3 f = v0.
Proof. intros H. unfold v3. rewrite !H. reflexivity. Qed.
Lemma still E q K g : z_stuff q = Hooke K g -> z_v q = v0 -> z_s q = m0 -> z_first q = true -> a_g E = v0 ->
  (forall a k, a_load E a k = 0) -> (forall k, a_belt E k = None) -> z_x (z_next E [q] q) = z_x q.
Proof.
  intros Hq Hv Hs Hf Hg Hl Hb.
  assert (V : forall a k, z_vel E [q] a k = 0).
  { intros a k. unfold z_vel. destruct (Rlt_dec _ _); [|reflexivity]. 
    assert (Z : Rsum (map (fun r => z_m r * comp a (z_v r) * hat (a_P E) (z_x r) k) [q]) = 0) by (cbn [map]; rewrite Hv; destruct a; cbn; ring).
    rewrite Z. unfold Rdiv. ring. }
  assert (D : z_strain E [q] q = m0).
  { unfold z_strain, m3. assert (K0 : forall a b, a_dt E * fsum (a_nodes E) (fun k => (z_vel E [q] a k * ghat (a_P E) (z_x q) b k + z_vel E [q] b k * ghat (a_P E) (z_x q) a k) / 2) = 0).
    { intros a b. rewrite fsum_zero; [ring|]. intros k _. rewrite !V. lra. }
    rewrite !K0. reflexivity. }
  assert (S1 : z_strained E [q] q = mkPoint (Hooke K g) (z_m q) (z_V q) (z_x q) (z_v q) m0 v0 true).
  { unfold z_strained. rewrite D, Hq, Hf, Hg. unfold z_memory, z_shed. rewrite Hq. f_equal.
    unfold z_stress, z_material, z_base, hooke, devi, tr3, m3, over. rewrite Hq, Hs. cbn. unfold n0. unR. apply ThmLaws.m3_ext; cbn; lra. }
  assert (A : forall a k, z_acc E [q] (map (z_strained E [q]) [q]) a k = 0).
  { intros a k. unfold z_acc. destruct (Rlt_dec _ _); [|reflexivity]. rewrite Hl. cbn [map]. rewrite S1.
    assert (Z : z_force E [mkPoint (Hooke K g) (z_m q) (z_V q) (z_x q) (z_v q) m0 v0 true] a k = 0).
    { unfold z_force, over. cbn [map z_m z_b z_x z_V z_s]. destruct a; cbn; ring. }
    rewrite Z. unfold Rdiv. ring. }
  unfold z_next. rewrite S1. unfold z_moved. cbn [z_stuff z_x].
  assert (X : forall a, fsum (a_nodes E) (fun k => hat (a_P E) (z_x q) k * z_end E [q] (map (z_strained E [q]) [q]) a k) = 0).
  { intros a. apply fsum_zero. intros k _. unfold z_end. rewrite Hb, V, A. destruct a; ring. }
  apply v3_eq. intros a. destruct a; unfold v3, comp; rewrite !X; cbn; ring.
Qed.
Definition wide_gridp : gridp R := mkGridp 0 12 0 2 13 3 (Some 1) (Some 1) 1 2 [1; 2] (Some 1) None.
Definition wide_params : params R := ex_params ex_bounds <| pG := wide_gridp |> <| p_intruder_v := Some (mkV3 1 0 0) |>.
Definition wide_state (G : grid R) (x : R) : state R :=
  mkState wide_params G [mkPhase (mix_solid Elastic) 1 v0 [ex_particle (1/2) (1/2) v0 m0]; mkPhase (mix_solid Rigid) 1 v0 [ex_particle x (1/2) (mkV3 1 0 0) m0]].
Lemma wide_proper : proper wide_gridp.
Proof. unfold proper. cbn. repeat split; try lia; lra. Qed.
Lemma wide_whole G x : grid_ok wide_gridp G -> whole (wide_state G x).
Proof.
  intros OK. constructor; try reflexivity; try (cbn; unR; lra); try assumption.
  - exact wide_proper.
  - intros ph [<-|[<-|[]]]; cbn [s_law ph_sol mix_solid]; try exact I; intros p [<-|[]]; reflexivity.
  - intros ph p [<-|[<-|[]]] [<-|[]]; eexists; reflexivity.
  - repeat split; reflexivity.
  - left. reflexivity.
Qed.
Lemma wide_provided G x : provided (wide_state G x).
Proof.
  constructor; try reflexivity; try (cbn; unfold lit; unR; lra).
  - intros ph [<-|[<-|[]]]; reflexivity.
  - exists (mix_solid Elastic). split; [reflexivity|]. intros ph [<-|[<-|[]]]; apply mix_equipped; cbn; tauto.
  - intros ph _ _. discriminate.
Qed.
Lemma wide_cell : cell_w wide_gridp = 1 /\ cell_h wide_gridp = 1.
Proof. unfold cell_w, cell_h. cbn. split; lra. Qed.
Lemma wide_paced fill G x : grid_ok wide_gridp G -> 3 <= x < 11 -> paced no_loads fill 1 (wide_state G x) [].
Proof.
  intros OK Hx. destruct wide_cell as [CW CH]. set (s := wide_state G x). assert (W : whole s) by (apply wide_whole; exact OK).
  assert (D : Forall (fun q => in_dom (pG (sP s)) (z_x q) /\ (p_check (sP s) = true -> vz (z_x q) = 0)) (cloud (sP s) (sL s))) by (repeat constructor; cbn; unR; lra).
  destruct (p_C102_total no_loads fill 1 s [] (mix_solid Elastic) W (wide_provided G x) eq_refl) as (s' & tr' & E & C); [intros [|j] Hj; [exact D|lia]|].
  intros [|j] Hj; [|lia]. exists s, [], s', tr'. split; [reflexivity|]. split; [exact E|]. split; [apply (Forall_impl _ (fun q X => proj1 X) D)|].
  rewrite C. cbn [z_run]. set (A := ambient_of _ _ _ _). rewrite (z_step_next A).
  destruct (cloud (sP s) (sL s)) as [|q [|r [|? ?]]] eqn:EC; try discriminate EC. cbn [map].
  assert (Q : q = point_of (sP s) 0 (mkPhase (mix_solid Elastic) 1 v0 [ex_particle (1/2) (1/2) v0 m0]) (ex_particle (1/2) (1/2) v0 m0)) by (injection EC; auto).
  assert (Rr : r = point_of (sP s) 1 (mkPhase (mix_solid Rigid) 1 v0 [ex_particle x (1/2) (mkV3 1 0 0) m0]) (ex_particle x (1/2) (mkV3 1 0 0) m0)) by (injection EC; auto).
  assert (F : far wide_gridp (z_x q) (z_x r)) by (left; rewrite CW, Q, Rr; cbn; rewrite Rabs_left; lra).
  constructor; [|constructor; [|constructor]].
  - assert (SS := single_step A wide_proper [true; false] [q; r] eq_refl). cbv zeta in SS.
    assert (SS' : pick [true; false] (z_step A [q; r]) = z_step A [q]) by (apply SS; intros a b [<-|[]] [<-|[]]; exact F). rewrite !(z_step_next A) in SS'. cbn [pick map] in SS'.
    injection SS' as SS'. rewrite SS'. rewrite (still A q 3 2); [apply (near_self A); [exact wide_proper|lra]|rewrite Q; reflexivity|rewrite Q; reflexivity|rewrite Q; reflexivity|rewrite Q; reflexivity| | |].
    + unfold A, ambient_of. cbn. unfold n0. unR. rewrite !Rmult_0_l. reflexivity.
    + intros a k. unfold A, ambient_of, load_of. cbn. destruct a; reflexivity.
    + intros k. reflexivity.
  - unfold z_next, z_moved. assert (ST : z_stuff (z_strained A [q; r] r) = Intruder) by (rewrite Rr; reflexivity). rewrite ST. apply near_iff. change (pG (sP s)) with wide_gridp. rewrite CW, CH, Rr. cbn. unR. split; [|rewrite Rabs_left1; lra].
    rewrite Rabs_left; lra.
Qed.

(** An elastic body at rest with an intruder moving on one or another place far away. *)
Example x_C106_reach : forall fill, exists (s s1 : state R) S0 c x, whole s /\ whole s1 /\ sP s1 = sP s /\ sG s1 = sG s /\
  sol0 (sL s) = Ok S0 /\ sol0 (sL s1) = Ok S0 /\ paced no_loads fill 1 s [] /\ paced no_loads fill 1 s1 [] /\
  cloud (sP s) (sL s) <> cloud (sP s) (sL s1) /\ around (pG (sP s)) c x (cloud (sP s) (sL s)) <> [] /\
  around (pG (sP s)) (c + 5 * INR 1) x (cloud (sP s) (sL s)) = around (pG (sP s)) (c + 5 * INR 1) x (cloud (sP s) (sL s1)).
Proof.
  intros fill. destruct (grid_init_ok wide_gridp ex_bounds wide_proper) as (G & EG & OK). destruct wide_cell as [CW CH].
  exists (wide_state G 9), (wide_state G 10), (mix_solid Elastic), 1, (mkV3 (1/2) (1/2) 0).
  split; [apply wide_whole; exact OK|]. split; [apply wide_whole; exact OK|]. do 4 (split; [reflexivity|]).
  split; [apply wide_paced; [exact OK|lra]|]. split; [apply wide_paced; [exact OK|lra]|].
  assert (NA : forall c x, 1 <= c -> near wide_gridp c x x = true) by (intros; apply (near_self (ambient_of wide_params 0 (no_loads wide_params) G) wide_proper); lra).
  split; [|split].
  - cbn. intros H. injection H. intros. lra.
  - unfold around. cbn. set (b := near _ _ _ _). assert (b = true) as -> by (apply NA; lra). discriminate.
  - unfold around. cbn. set (b := near wide_gridp _ _ (mkV3 9 _ _)). set (b1 := near wide_gridp _ _ (mkV3 10 _ _)).
    assert (b = false) as ->. { unfold b. apply not_true_is_false. rewrite near_iff. rewrite CW. cbn. rewrite Rabs_left; lra. }
    assert (b1 = false) as ->. { unfold b1. apply not_true_is_false. rewrite near_iff. rewrite CW. cbn. rewrite Rabs_left; lra. }
    reflexivity.
Qed.
