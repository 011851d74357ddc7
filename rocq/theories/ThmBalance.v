(** * Momentum balance of a step, rest and uniform motion *)
From Coq Require Import ZArith List Bool Arith Lia Reals Lra.
From Verif Require Import State NumR LibR LibList Spec SpecStep SpecLaws ModelGrid ModelConstit ModelParticle ModelMPList
  ModelIntegr ModelMain ProofsGrid ProofsMap ProofsP2G ProofsWalls ProofsLaws ProofsInOut ProofsHist Concrete
  ThmMapping ThmWalls ThmLaws ThmInOut ProofsStep ProofsPoints ThmStep.
Import ListNotations.
Local Open Scope R_scope.
Local Existing Instance Num_R.

(** Total momentum of the particles along an axis. *)
Definition momentum (a : axis) (L : list (phase R)) : R := psum L (fun ph p => pm p * comp a (velocity ph p)).
(** Every particle carries its own velocity array (as particles created by the program do). *)
Definition own_velocities (L : list (phase R)) : Prop := all_live L (fun _ p => exists v, pv p = Own v).
Definition heavy (P : params R) (G : grid R) (k : nat) : Prop := p_Mtol P < nth k (gm G) 0.

(** ** C08 *)

(** In general the particles receive exactly the rates of the heavy nodes; what
    the other nodes hold is lost. *)
Lemma p_C08_exact : forall uf fill s s' a, proper (pG (sP s)) -> grid_ok (pG (sP s)) (sG s) ->
  all_live (sL s) (fun _ p => in_dom (pG (sP s)) (px p)) -> shut (sP s) ->
  (forall ph, In ph (sL s) -> s_law (ph_sol ph) <> Rigid /\ s_law (ph_sol ph) <> ElasticTime) ->
  own_velocities (sL s) -> 0 <= p_Mtol (sP s) ->
  time_march uf fill s = Ok s' ->
  momentum a (sL s') = momentum a (sL s) +
    p_dt (sP s) * fsum (nx (pG (sP s)) * ny (pG (sP s)))
      (fun k => if Rlt_dec (p_Mtol (sP s)) (nth k (gm (sG s')) 0) then comp a (nth k (gqd (sG s')) v0) else 0).
Proof.
  intros uf fill s s' a HP HG HD HS HL HO HM E.
  assert (HR : forall ph, In ph (sL s) -> s_law (ph_sol ph) <> Rigid) by (intros; apply HL; auto).
  pose proof (march_points uf fill s s' HP HG HD HS HR E) as MP.
  pose proof (march_mass uf fill s s' HP HG HD HS E) as MM.
  set (P := sP s <| p_loads := uf (sP s) |>) in *.
  unfold momentum. symmetry.
  transitivity (psum (sL s) (fun ph p => pm p * comp a (velocity ph p) +
     p_dt (sP s) * fsum (nodes (pG P)) (fun k => pm p * hat (pG P) (px p) k * node_acc P (sG s') a k))).
  - rewrite psum_plus, psum_scal. f_equal. f_equal. rewrite <- psum_swap. apply fsum_ext. intros k Hk.
    rewrite psum_scal_r. change (pG P) with (pG (sP s)). rewrite <- MM. unfold node_acc. change (p_Mtol P) with (p_Mtol (sP s)).
    unfold Rltb. destruct (Rlt_dec _ _); [|lra]. field. lra.
  - eapply Prel_psum; [exact MP|]. cbv beta. intros ph ph' p p' A B _ _ ES (M1 & M2 & M3).
    rewrite M1 by (apply HL; auto). destruct (HO ph p A B) as [v Ev]. unfold velocity. rewrite Ev in *.
    destruct M3 as (v' & Ev' & M3). rewrite Ev'. rewrite M3. change (p_dt P) with (p_dt (sP s)).
    rewrite (fsum_ext _ _ (fun k => pm p * (hat (pG P) (px p) k * node_acc P (sG s') a k))) by (intros; lra).
    rewrite (fsum_scal _ _ (fun k => hat (pG P) (px p) k * node_acc P (sG s') a k)). lra.
Qed.

(** The resultant of the surface loads (C49), from the nodal masses. *)
Definition surface_load (P : params R) (l : loads R) (rho : R) (G : grid R) (a : axis) : R :=
  match a with
  | AX => if horizontal_force (pB P) then 2 * ld_qh l / (rho * cell_w (pG P)) * (col_mass (pG P) G 0 - col_mass (pG P) G (nx (pG P) - 1)) else 0
  | AY => if vertical_force (pB P) then 2 * ld_qv l / (rho * cell_h (pG P)) * (row_mass (pG P) G 0 - row_mass (pG P) G (ny (pG P) - 1)) else 0
  | AZ => 0
  end.

Lemma fint_off (P : params R) p a k : proper (pG P) -> located (pG P) p ->
  (forall r, (r < 4)%nat -> corner_node (pG P) (cell_node (pG P) (px p)) r <> k) ->
  fint_at P p a k = 0 /\ wt P p k = 0.
Proof.
  intros HP HL HN. pose proof HL as (HD & EN & _). split.
  - unfold fint_at. apply fsum_zero. intros r Hr. rewrite EN, hit_corner by assumption.
    destruct (Nat.eqb_spec k (corner_node (pG P) (cell_node (pG P) (px p)) r)) as [Q|]; [exfalso; apply (HN r Hr); auto|lra].
  - unfold wt. apply fsum_zero. intros r Hr. rewrite EN, hit_corner by assumption.
    destruct (Nat.eqb_spec k (corner_node (pG P) (cell_node (pG P) (px p)) r)) as [Q|]; [exfalso; apply (HN r Hr); auto|lra].
Qed.

Lemma BCs_fi P rho (G G' : grid R) : BCs P rho G = Ok G' -> gfi G' = gfi G.
Proof.
  unfold BCs. cbv zeta. intros E. destruct (p_aniso P && _)%bool; [discriminate|]. injection E as <-.
  destruct (vertical_force (pB P)), (horizontal_force (pB P)); reflexivity.
Qed.

(** With no walls and every corner of every occupied cell heavy: the change of
    momentum is dt times the body forces and surface loads, times 7/10 if damped. *)
Lemma p_C08_momentum_balance : forall uf fill s s' S0 a, proper (pG (sP s)) -> grid_ok (pG (sP s)) (sG s) ->
  all_live (sL s) (fun _ p => in_dom (pG (sP s)) (px p)) -> shut (sP s) ->
  (forall ph, In ph (sL s) -> s_law (ph_sol ph) <> Rigid /\ s_law (ph_sol ph) <> ElasticTime) ->
  own_velocities (sL s) -> 0 <= p_Mtol (sP s) ->
  wall_free (bv (sG s)) (bh (sG s)) -> no_rub (pB (sP s)) ->
  sol0 (sL s) = Ok S0 -> s_rho S0 <> 0 ->
  time_march uf fill s = Ok s' ->
  all_live (sL s) (fun _ p => forall r, (r < 4)%nat -> heavy (sP s) (sG s') (corner_node (pG (sP s)) (cell_node (pG (sP s)) (px p)) r)) ->
  momentum a (sL s') = momentum a (sL s) + p_dt (sP s) * (if p_damping (sP s) then 7/10 else 1) *
    (psum (sL s') (fun _ p => pm p * comp a (pb p)) + surface_load (sP s) (uf (sP s)) (s_rho S0) (sG s') a).
Proof.
  intros uf fill s s' S0 a HP HG HD HS HL HO HM WF NR HS0 Hrho E HH.
  rewrite (p_C08_exact uf fill s s' a HP HG HD HS HL HO HM E).
  rewrite Rmult_assoc. f_equal. f_equal.
  pose proof HS as (Hs & Hc & Hv & O1 & O2 & I1 & I2).
  destruct (march_stages uf fill s s' HP HG HD Hs Hc E) as
    (S1 & L1 & L3 & L4 & L5 & G1 & G3 & G4 & G5 & G6 & HS1 & E1 & R1 & R3 & E2 & F1 & E3 & R4 & F3 & Lo & E4 & LF & E5 & Z4 & Z5 & E6 & EP & EG & PM & EI).
  rewrite HS0 in HS1. injection HS1 as <-.
  set (P := sP s <| p_loads := uf (sP s) |>) in *. set (Pg := pG (sP s)) in *.
  destruct (force_loop_spec P L4 G3 G4 LF E4) as (F4 & _ & FI & FE).
  pose proof (BCs_frame _ _ _ _ E5) as F5. destruct (um_shape P G5 G6 E6) as [F6 _].
  pose proof (p_C49_surface_loads P (s_rho S0) G4 G5 Z4 HP) as SL.
  pose proof (p_C49_load_resultant P (s_rho S0) G4 G5 Z4 HP) as SR.
  destruct (wipe_geo (sP s) (sG s)) as (W1 & W2 & _ & _ & _ & W6 & W7 & _).
  pose proof (cell_w_pos _ HP) as Hw. pose proof (cell_h_pos _ HP) as Hh.
  unfold frame_all in F1. unfold vis_frame in F3. unfold frame_f in F4. unfold force_frame in F5.
  assert (EM : gm (sG s') = gm G1).
  { rewrite EG. unfold calculate_gammadot. cbn. rewrite F6. cbn. rewrite F5. cbn. rewrite F4. cbn. rewrite F3. reflexivity. }
  assert (EM4 : gm G4 = gm G1). { rewrite F4. cbn. rewrite F3. reflexivity. }
  assert (EX : forall k, nth k (gext G4) v0 = v0).
  { intros k. rewrite F4. cbn. rewrite F3. cbn. rewrite F1. cbn. rewrite wipe_ext. apply nth_repeat_same. }
  assert (DX4 : gdx G4 = cell_w Pg). { rewrite F4. cbn. rewrite F3. cbn. rewrite F1. cbn. rewrite W1. exact (go_dx _ _ HG). }
  assert (DY4 : gdy G4 = cell_h Pg). { rewrite F4. cbn. rewrite F3. cbn. rewrite F1. cbn. rewrite W2. exact (go_dy _ _ HG). }
  assert (BV : bv G5 = bv (sG s) /\ bh G5 = bh (sG s)).
  { rewrite F5. cbn. rewrite F4. cbn. rewrite F3. cbn. rewrite F1. cbn. split; assumption. }
  destruct BV as [BV BH].
  assert (FI3 : gfi G3 = repeat v0 (nodes Pg)). { rewrite F3. cbn. rewrite F1. cbn. apply wipe_fi. }
  assert (FE3 : gfe G3 = repeat v0 (nodes Pg)). { rewrite F3. cbn. rewrite F1. cbn. apply wipe_fe. }
  assert (FI5 : gfi G5 = gfi G4) by (eapply BCs_fi; exact E5).
  specialize (SL EX E5). cbv zeta in SL. specialize (SR EX E5 Hrho).
  rewrite DX4, DY4 in SR. specialize (SR ltac:(lra) ltac:(lra)). cbv zeta in SR.
  (* masses of L4 agree with the nodes *)
  assert (RC : Lrel (fun ph p p' => px p' = px p /\ pm p' = pm p /\ located Pg p') L3 L4).
  { assert (NET : forall ph, In ph L3 -> s_law (ph_sol ph) <> ElasticTime).
    { intros ph Hph. pose proof (Lrel_sol _ _ _ R3) as Q3. pose proof (Lrel_sol _ _ _ R1) as Q1. rewrite Q1 in Q3.
      destruct (map_in_sol (sL s) L3 ph Q3 Hph) as (ph0 & A & <-). apply HL; exact A. }
    clear - R4 Lo NET. induction R4 as [|ph ph' L L' (A1 & A2 & A3 & A4 & A5) R4 IH]; constructor.
    - split; [exact A1|]. split; [exact A2|]. split; [exact A3|]. split; [|exact A5].
      assert (LL : forall p, In p (live ph') -> located Pg p) by (intros; apply (Lo ph'); [left; auto|auto]).
      specialize (NET ph (or_introl eq_refl)).
      clear - A4 LL NET. induction A4 as [|p p' l l' [X Y] A4 IH]; constructor.
      + split; [unfold strained, law_frame in X; rewrite X; reflexivity|]. split; [apply Y; exact NET|]. apply LL; left; reflexivity.
      + apply IH. intros; apply LL; right; auto.
    - apply IH; [intros q r X Y; apply (Lo q); [right; exact X|exact Y]|intros q X; apply NET; right; exact X]. }
  assert (MK : forall k, nth k (gm G1) 0 = psum L4 (fun _ p => pm p * wt P p k)).
  { intros k. rewrite <- EM. rewrite (march_mass uf fill s s' HP HG HD HS E). fold Pg.
    assert (RC2 : Lrel (fun _ p p' => px p' = px p /\ pm p' = pm p /\ located Pg p') (sL s) L4).
    { eapply Lrel_trans; [exact R1| |].
      - eapply (Lrel_trans _ _ (fun _ p p' => px p' = px p /\ pm p' = pm p /\ located Pg p')); [exact R3|exact RC|].
        cbv beta. intros ph ph' p p1 p2 _ _ _ _ [_ ->] X. exact X.
      - cbv beta. intros ph ph' p p1 p2 _ _ _ _ [b ->] X. exact X. }
    eapply Lrel_psum; [exact RC2|]. cbv beta. intros ph p ph' p' _ _ _ _ _ (X & Y & Z).
    rewrite (wt_hat P p' k HP Z), X, Y. reflexivity. }
  (* nodes that are not heavy are corners of no occupied cell *)
  assert (OFF : forall k, ~ heavy (sP s) (sG s') k -> all_live L4 (fun _ p => fint_at P p a k = 0 /\ wt P p k = 0)).
  { intros k Hk. assert (HH4 : all_live L4 (fun _ p => forall r, (r < 4)%nat -> heavy (sP s) (sG s') (corner_node Pg (cell_node Pg (px p)) r))).
    { eapply (Lrel_all_live _ L3 L4); [exact RC| |].
      { cbv beta. intros ph p ph' p' _ _ _ _ _ (X & _) Y. rewrite X. exact Y. }
      eapply (Lrel_all_live _ L1 L3); [exact R3| |].
      { cbv beta. intros ph p ph' p' _ _ _ _ _ [_ ->] Y. exact Y. }
      eapply (Lrel_all_live _ (sL s) L1); [exact R1| |exact HH].
      cbv beta. intros ph p ph' p' _ _ _ _ _ [b ->] Y. exact Y. }
    intros ph p A B. apply fint_off; [exact HP|apply (Lo ph p A B)|]. intros r Hr Q. apply Hk. rewrite <- Q. apply (HH4 ph p A B r Hr). }
  assert (RATE : forall k, (k < nodes Pg)%nat -> comp a (nth k (gqd (sG s')) v0) = net_force P G5 a k).
  { intros k Hk. assert (EQ : gqd (sG s') = gqd G6) by (rewrite EG; reflexivity). rewrite EQ.
    rewrite (no_rub_rate P G5 G6 Z5 E6 NR). destruct (WF k) as [V0 H0]. rewrite BV, BH.
    destruct a; cbn [open_a]; unfold open_x, open_y; rewrite ?V0, ?H0, ?andb_false_r; cbn [orb]; lra. }
  set (c := if p_damping (sP s) then 7/10 else 1).
  rewrite (fsum_ext _ _ (fun k => c * (comp a (nth k (gfe G5) v0) - comp a (nth k (gfi G4) v0)))).
  2:{ intros k Hk. destruct (Rlt_dec _ _) as [Y|Nh].
    - rewrite (RATE k Hk). unfold net_force. rewrite FI5. reflexivity.
    - assert (OK := OFF k Nh). specialize (FI a k). rewrite FI3, nth_repeat_same in FI.
      assert (Z0 : comp a (nth k (gfi G4) v0) = 0).
      { rewrite FI. rewrite (psum_ext _ _ (fun _ _ => 0)) by (intros ph p A B; apply (OK ph p A B)). rewrite psum_zero by (intros ? ? ? ?; reflexivity). destruct a; cbn; lra. }
      assert (M0 : nth k (gm G4) 0 = 0).
      { rewrite EM4, MK. rewrite (psum_ext _ _ (fun _ _ => 0)) by (intros ph p A B; destruct (OK ph p A B) as [_ ->]; lra). apply psum_zero. intros ? ? ? ?; reflexivity. }
      specialize (FE a k). rewrite FE3, nth_repeat_same in FE.
      assert (Z1 : comp a (nth k (gfe G4) v0) = 0).
      { rewrite FE. rewrite (psum_ext _ _ (fun _ _ => 0)) by (intros ph p A B; destruct (OK ph p A B) as [_ ->]; lra). rewrite psum_zero by (intros ? ? ? ?; reflexivity). destruct a; cbn; lra. }
      destruct (SL k Hk) as (A1 & A2 & A3). rewrite M0 in A1, A2.
      assert (Z2 : comp a (nth k (gfe G5) v0) = 0).
      { destruct a; cbn [comp] in *; [rewrite A1, Z1; destruct (horizontal_force _)|rewrite A2, Z1; destruct (vertical_force _)|rewrite A3]; unfold Rdiv; lra. }
      rewrite Z0, Z2. lra. }
  rewrite fsum_scal. f_equal. rewrite fsum_minus.
  (* internal forces cancel *)
  assert (SI : fsum (nodes Pg) (fun k => comp a (nth k (gfi G4) v0)) = 0).
  { rewrite (fsum_ext _ _ (fun k => psum L4 (fun _ p => fint_at P p a k))).
    - rewrite psum_swap. apply psum_zero. intros ph p A B. apply (fint_total P p a); [exact (located_reaches P p HP (Lo ph p A B))|].
      intros b. rewrite (fsum_ext _ _ (fun r => comp b (wG (cell_w Pg) (cell_h Pg) (loc Pg (px p)) r))) by (intros; rewrite (located_G Pg p) by (apply (Lo ph p A B)); reflexivity).
      apply shape_grad_zero; lra.
    - intros k Hk. rewrite FI, FI3, nth_repeat_same. destruct a; cbn; lra. }
  change (nx Pg * ny Pg)%nat with (nodes Pg). rewrite SI, Rminus_0_r.
  (* body forces *)
  assert (SE : fsum (nodes Pg) (fun k => comp a (nth k (gfe G4) v0)) = psum (sL s') (fun _ p => pm p * comp a (pb p))).
  { rewrite (fsum_ext _ _ (fun k => psum L4 (fun _ p => pm p * comp a (pb p) * wt P p k))).
    2:{ intros k Hk. rewrite FE, FE3, nth_repeat_same. rewrite (psum_ext L4 (fun _ p => pm p * comp a (pb p) * wt P p k) (fun _ p => pm p * wt P p k * comp a (pb p))) by (intros ? ? ? ?; lra). destruct a; cbn; lra. }
    rewrite psum_swap.
    assert (IO : inout P L5 = Ok L5).
    { unfold inout. change (pB P) with (pB (sP s)). rewrite O1, O2, I1, I2, Hc. reflexivity. }
    rewrite IO in EI. injection EI as EI. rewrite <- EI.
    assert (RR : forall ph, In ph L4 -> is_rigid (s_law (ph_sol ph)) = false).
    { intros ph Hph. pose proof (Lrel_sol _ _ _ R4) as Q4. rewrite (Lrel_sol _ _ _ R3), (Lrel_sol _ _ _ R1) in Q4.
      destruct (map_in_sol (sL s) L4 ph Q4 Hph) as (ph0 & A & <-). destruct (HL ph0 A) as [B _]. destruct (s_law (ph_sol ph0)); try reflexivity; congruence. }
    assert (PR : Prel (fun _ p p' => pm p' = pm p /\ pb p' = pb p) L4 L5).
    { clear - PM RR. induction PM as [|ph ph' L L' (A1 & A2 & A3 & A4 & _) PM IH]; constructor.
      - split; [exact A1|]. split; [exact A2|]. split; [exact A3|]. rewrite RR in A4 by (left; reflexivity).
        eapply Forall2_imp; [|exact A4]. intros p p' (X & _). rewrite X. split; reflexivity.
      - apply IH. intros; apply RR; right; auto. }
    eapply Prel_psum; [exact PR|]. cbv beta. intros ph ph' p p' A B _ _ _ (X & Y). rewrite X, Y.
    rewrite (fsum_scal _ _ (fun k => wt P p k)).
    destruct (hat_sums Pg (px p) HP) as (U & _); [apply (Lo ph p A B)|].
    rewrite (fsum_ext _ _ (fun k => hat Pg (px p) k)) by (intros; apply (wt_hat P p); [exact HP|apply (Lo ph p A B)]).
    rewrite U. lra. }
  change (nodes (pG P)) with (nodes Pg) in SR. rewrite <- SE.
  destruct SR as [SRX SRY]. change (pG P) with Pg in SRX, SRY. change (pB P) with (pB (sP s)) in SRX, SRY. change (p_loads P) with (uf (sP s)) in SRX, SRY.
  unfold surface_load. fold Pg. unfold col_mass, row_mass in *. rewrite EM. rewrite EM4 in SRX, SRY. change (nx Pg * ny Pg)%nat with (nodes Pg) in SRX, SRY.
  destruct a; cbn [comp].
  - lra.
  - lra.
  - rewrite Rplus_0_r. apply fsum_ext. intros k Hk. apply (SL k Hk).
Qed.

Lemma INR_between n (c : nat) x : (forall k, INR c = x + k -> False) \/ (INR n - 1 < x < INR n + 1 -> INR c = x -> c = n).
Proof.
  right. intros [A B] E. rewrite <- E in A, B. destruct (Nat.lt_trichotomy c n) as [H|[H|H]]; [|exact H|]; exfalso.
  - assert (Q : (c + 1 <= n)%nat) by lia. apply le_INR in Q. rewrite plus_INR in Q. simpl in Q. lra.
  - assert (Q : (n + 1 <= c)%nat) by lia. apply le_INR in Q. rewrite plus_INR in Q. simpl in Q. lra.
Qed.
Lemma INR_pin n (c : nat) : INR n - 1 < INR c < INR n + 1 -> c = n.
Proof. intros H. destruct (INR_between n c (INR c)) as [A|A]; [exfalso; apply (A 0); lra|]. apply A; auto. Qed.

Lemma ex_cell : cell_w (ex_gridp (T := R)) = 1 /\ cell_h (ex_gridp (T := R)) = 1.
Proof. unfold cell_w, cell_h. cbn. split; field. Qed.
Lemma ex_loc l : all_live (ex_L l) (fun _ p => vx (loc ex_gridp (px p)) = 1/2 /\ (vy (loc ex_gridp (px p)) = 1/2 \/ vy (loc ex_gridp (px p)) = 1/4)).
Proof.
  destruct ex_cell as [EW EH].
  intros ph p A B. pose proof (ex_dom l ph p A B) as D. destruct (loc_bounds ex_gridp ex_proper (px p) D) as [LX LY].
  rewrite EW in LX. rewrite EH in LY. unfold loc in *. cbn [vx vy] in *. unfold node_x, node_y in *. rewrite EW, EH in *.
  generalize dependent (col (ex_gridp (T := R)) (cell_node ex_gridp (px p))). generalize dependent (row (ex_gridp (T := R)) (cell_node ex_gridp (px p))).
  destruct A as [<-|[]]. destruct B as [<-|[<-|[]]]; cbn; intros j LY i LX.
  - assert (C : i = 0%nat) by (apply INR_pin; simpl; lra). assert (C' : j = 0%nat) by (apply INR_pin; simpl; lra). subst. simpl. lra.
  - assert (C : i = 1%nat) by (apply INR_pin; simpl; lra). assert (C' : j = 1%nat) by (apply INR_pin; simpl; lra). subst. simpl. lra.
Qed.
Lemma ex_hat l : all_live (ex_L l) (fun _ p => forall r, (r < 4)%nat ->
  1/8 <= hat ex_gridp (px p) (corner_node ex_gridp (cell_node ex_gridp (px p)) r)).
Proof.
  destruct ex_cell as [EW EH]. intros ph p A B r Hr.
  rewrite (hat_corner ex_gridp ex_proper (px p) r (ex_dom l ph p A B) Hr). rewrite EW, EH.
  destruct (ex_loc l ph p A B) as [X Y]. generalize dependent (loc ex_gridp (px p)). intros x X Y. unfold wN.
  do 4 (destruct r as [|r]; [cbn; rewrite X; destruct Y as [-> | ->]; lra|]). lia.
Qed.
Lemma ex_heavy uf fill B G l s' : grid_ok ex_gridp G -> shut (ex_params B) ->
  time_march uf fill (start (ex_params B) G l) = Ok s' ->
  all_live (ex_L l) (fun _ p => forall r, (r < 4)%nat ->
    heavy (ex_params B) (sG s') (corner_node ex_gridp (cell_node ex_gridp (px p)) r)).
Proof.
  intros OK HS E ph p A C r Hr. unfold heavy.
  rewrite (march_mass uf fill (start (ex_params B) G l) s' ex_proper OK (ex_dom l) HS E).
  cbn [start sL sP ex_params pG p_Mtol].
  pose proof (ex_hat l ph p A C r Hr) as H8. set (k := corner_node _ _ r) in *.
  assert (M : forall ph p, In ph (ex_L l) -> In p (live ph) -> pm p = 2).
  { intros ph0 p0 [<-|[]] [<-|[<-|[]]]; cbn; lra. }
  apply Rlt_le_trans with (pm p * hat ex_gridp (px p) k).
  - rewrite (M ph p A C). cbn. lra.
  - apply (psum_ge_elem (ex_L l) (fun _ p => pm p * hat ex_gridp (px p) k) ph p); auto.
    intros ph0 p0 A0 C0. rewrite (M ph0 p0 A0 C0). pose proof (hat_nonneg ex_gridp (px p0) k). lra.
Qed.
(** Two moving, stressed elastic points under gravity and a vertical surface load. *)
Example x_C08_momentum_balance : forall uf fill, exists s s' S0, proper (pG (sP s)) /\ grid_ok (pG (sP s)) (sG s) /\
  all_live (sL s) (fun _ p => in_dom (pG (sP s)) (px p)) /\ shut (sP s) /\
  (forall ph, In ph (sL s) -> s_law (ph_sol ph) <> Rigid /\ s_law (ph_sol ph) <> ElasticTime) /\
  own_velocities (sL s) /\ 0 <= p_Mtol (sP s) /\ wall_free (bv (sG s)) (bh (sG s)) /\ no_rub (pB (sP s)) /\
  sol0 (sL s) = Ok S0 /\ s_rho S0 <> 0 /\ vertical_force (pB (sP s)) = true /\ time_march uf fill s = Ok s' /\
  all_live (sL s) (fun _ p => forall r, (r < 4)%nat -> heavy (sP s) (sG s') (corner_node (pG (sP s)) (cell_node (pG (sP s)) (px p)) r)).
Proof.
  intros uf fill. set (B := ex_bounds (T := R) <| vertical_force := true |>).
  destruct (grid_init_ok ex_gridp B ex_proper) as (G & EG & OK).
  pose proof (ex_ready B G EG OK eq_refl eq_refl eq_refl Elastic (or_introl eq_refl)) as HR.
  destruct (march_total uf fill _ HR) as [s' E].
  exists (start (ex_params B) G Elastic), s', (ex_solid Elastic).
  assert (SH : shut (ex_params B)) by (repeat split; reflexivity).
  split; [exact ex_proper|]. split; [exact OK|]. split; [exact (ex_dom Elastic)|]. split; [exact SH|].
  split; [intros ph [<-|[]]; split; discriminate|].
  split; [intros ph p [<-|[]] [<-|[<-|[]]]; eexists; reflexivity|].
  split; [cbn; lra|]. split.
  { intros k. destruct (Nat.lt_ge_cases k 12) as [Hk|Hk].
    - destruct (p_C10_wall_masks R Num_R ex_gridp B G EG) with (k := k) as (X & Y & _); [repeat split; reflexivity|exact Hk|].
      cbn [has_bottom has_top has_left has_right no_slip_bottom B ex_bounds set] in X, Y. cbn [start sG].
      split; [destruct (nth k (bv G) false); [|reflexivity]|destruct (nth k (bh G) false); [|reflexivity]]; exfalso.
      + destruct (proj1 Y eq_refl) as [[_ Q]|[[_ Q]|[_ Q]]]; discriminate.
      + destruct (proj1 X eq_refl) as [[_ Q]|[_ Q]]; discriminate.
    - cbn [start sG]. destruct OK. rewrite !nth_overflow; [split; reflexivity|rewrite go_bh; exact Hk|rewrite go_bv; exact Hk]. }
  split; [left; reflexivity|]. split; [reflexivity|]. split; [cbn; lra|]. split; [reflexivity|]. split; [exact E|].
  exact (ex_heavy uf fill B G Elastic s' OK SH E).
Qed.

(** ** C55, C59: uniform motion and rest *)

(** The four corners of the cell of [p] all move with velocity [c]. *)
Definition still (P : params R) (G : grid R) (c : V3 R) (p : particle R) : Prop :=
  forall r, (r < 4)%nat -> forall a, node_v P G a (corner_node (pG P) (cell_node (pG P) (px p)) r) = comp a c.

Lemma strain_still P G p c p' : proper (pG P) -> located (pG P) p ->
  length (gm G) = nodes (pG P) -> length (gq G) = nodes (pG P) -> still P G c p ->
  update_strain P G p = Ok p' ->
  pdstrain p' = m0 /\ pL p' = m0 /\ p' = p <| pdstrain := m0 |> <| pL := m0 |> <| pstrain := pstrain p' |>.
Proof.
  intros HP HL Lm Lq HC E. pose proof HL as (HD & EN & _).
  assert (NV : forall r, (r < 4)%nat -> nodal_velocity P G (nearby (pnstar p) r (nx (pG P))) = Ok c).
  { intros r Hr. specialize (HC r Hr). unfold node_v in HC. unfold nodal_velocity. rewrite EN.
    rewrite (py_get_some (gm G) _ (corner_node (pG P) (cell_node (pG P) (px p)) r) 0)
      by (rewrite Lm; apply corner_in_range; auto).
    cbn [bind]. cbn [nltb Num_R]. destruct (Rltb (p_Mtol P) _).
    - rewrite (py_get_some (gq G) _ (corner_node (pG P) (cell_node (pG P) (px p)) r) v0)
        by (rewrite Lq; apply corner_in_range; auto).
      cbn [bind]. f_equal. apply v3_ext. intros a. rewrite comp_vdivs. apply HC.
    - f_equal. apply v3_ext. intros a. rewrite <- HC. destruct a; reflexivity. }
  unfold update_strain, four in E. cbn [foldM] in E.
  rewrite (NV 0%nat) in E by lia. rewrite (NV 1%nat) in E by lia.
  rewrite (NV 2%nat) in E by lia. rewrite (NV 3%nat) in E by lia.
  cbn [bind fst snd] in E. injection E as <-. cbn [pdstrain pL pstrain set].
  rewrite !(located_G _ _ _ HL).
  pose proof (cell_w_pos _ HP). pose proof (cell_h_pos _ HP).
  assert (A : forall M N : M3 R, M = N -> M = N) by auto.
  match goal with |- ?D = m0 /\ ?L = m0 /\ _ => assert (DZ : D = m0); [|assert (LZ : L = m0); [|split; [exact DZ|split; [exact LZ|]]]] end.
  - unfold loc, wG. apply m3_ext; cbn; field; lra.
  - unfold loc, wG. apply m3_ext; cbn; field; lra.
  - rewrite DZ, LZ. destruct p; reflexivity.
Qed.

Lemma elastic_still P S0 S k p G p' G' : s_law S = Elastic -> pdstrain p = m0 -> pL p = m0 ->
  update_stress P S0 S k p G = Ok (p', G') -> pstress p' = pstress p.
Proof.
  intros HE Hd HLz E. unfold update_stress in E. pbinds E. injection E as <- <-. cbn [pstress set].
  pose proof (law_effect _ _ _ _ _ _ _ _ E0) as (F & _ & _ & _ & ST). rewrite HE in ST. specialize (ST ltac:(discriminate)).
  unfold apply_law in E0. rewrite HE in E0. destruct (elastic_out _ _ _ _ _ _ E0) as (K & g & _ & _ & ED).
  assert (LZ : pL b = m0). { unfold law_frame in F. rewrite F. exact HLz. }
  rewrite ED, LZ, ST, Hd. clear. destruct (pstress p). apply m3_ext; cbn; unfold tr3; cbn; lra.
Qed.

Lemma stress_quiet P L (G : grid R) L' G' c : proper (pG P) -> length (gm G) = nodes (pG P) -> length (gq G) = nodes (pG P) ->
  stress_strain P L G = Ok (L', G') -> cyclic_lr (pB P) = false ->
  Lrel (fun ph p p' => s_law (ph_sol ph) = Elastic -> located (pG P) p -> still P G c p -> pstress p' = pstress p) L L'.
Proof.
  intros HP Lm Lq E Hc. unfold stress_strain in E. pbinds E. rewrite Hc in E. injection E as <- <-.
  match goal with H : points _ _ _ = Ok (?l, ?g) |- _ => rename H into EP; rename l into L1; rename g into G1 end.
  apply (points_rel (stress_one P a) (fun G1 => vis_frame G G1)
    (fun ph p p' => s_law (ph_sol ph) = Elastic -> located (pG P) p -> still P G c p -> pstress p' = pstress p) L G L1 G1) in EP.
  - apply EP.
  - apply vis_frame_refl.
  - intros k ph p G2 p' G2' _ _ V X. pose proof (stress_one_rel _ _ _ _ _ _ _ _ X) as (X1 & X2 & _ & X3).
    split; [exact (vis_frame_trans _ _ _ V X2)|]. intros EL HL HS. unfold stress_one in X. pbinds X.
    assert (EM : gm G2 = gm G) by (rewrite V; reflexivity). assert (EQ : gq G2 = gq G) by (rewrite V; reflexivity).
    assert (HS2 : still P G2 c p). { intros r Hr b. unfold node_v. rewrite EM, EQ. apply HS; exact Hr. }
    destruct (strain_still P G2 p c a0 HP HL) as (D0 & L0 & FR); auto; [rewrite EM; exact Lm|rewrite EQ; exact Lq|].
    rewrite (elastic_still _ _ _ _ _ _ _ _ EL D0 L0 X), FR. reflexivity.
Qed.

(** No body force, no surface load. *)
Definition unloaded (P : params R) (l : loads R) : Prop :=
  ld_g l = 0 /\ (vertical_force (pB P) = true -> ld_qv l = 0) /\ (horizontal_force (pB P) = true -> ld_qh l = 0).
(** A stress-free elastic body in which every particle moves with velocity [c]. *)
Definition drifting (c : V3 R) (L : list (phase R)) : Prop :=
  all_live L (fun ph p => s_law (ph_sol ph) = Elastic /\ pv p = Own c /\ pstress p = m0 /\ pb p = v0).

Lemma mv_zero (x : V3 R) a : comp a (mv m0 x) = 0.
Proof. destruct a; cbn; lra. Qed.

Lemma quiet_step uf fill s s' c : proper (pG (sP s)) -> grid_ok (pG (sP s)) (sG s) ->
  all_live (sL s) (fun _ p => in_dom (pG (sP s)) (px p)) -> shut (sP s) -> no_rub (pB (sP s)) ->
  0 <= p_Mtol (sP s) -> (forall ph, In ph (sL s) -> s_law (ph_sol ph) = Elastic) ->
  drifting c (sL s) -> unloaded (sP s) (uf (sP s)) ->
  time_march uf fill s = Ok s' ->
  (c = v0 \/ (wall_free (bv (sG s)) (bh (sG s)) /\
     all_live (sL s) (fun _ p => forall r, (r < 4)%nat -> heavy (sP s) (sG s') (corner_node (pG (sP s)) (cell_node (pG (sP s)) (px p)) r)))) ->
  Prel (fun _ p p' => px p' = vadd (px p) (vscale (p_dt (sP s)) c) /\ pv p' = Own c /\ pstress p' = m0 /\ pb p' = v0 /\ pm p' = pm p) (sL s) (sL s') /\
  (c = v0 -> forall a k, (k < nodes (pG (sP s)))%nat -> comp a (nth k (gq (sG s')) v0) = 0).
Proof.
  intros HP HG HD HS NR HM HL HQ (LG & LV & LH) E HC.
  assert (HR : forall ph, In ph (sL s) -> s_law (ph_sol ph) <> Rigid) by (intros ph A; rewrite (HL ph A); discriminate).
  pose proof HS as (Hs & Hc & Hv & O1 & O2 & I1 & I2).
  destruct (march_stages uf fill s s' HP HG HD Hs Hc E) as
    (S1 & L1 & L3 & L4 & L5 & G1 & G3 & G4 & G5 & G6 & HS1 & E1 & R1 & R3 & E2 & F1 & E3 & R4 & F3 & Lo & E4 & LF & E5 & Z4 & Z5 & E6 & EP & EG & PM & EI).
  set (P := sP s <| p_loads := uf (sP s) |>) in *. set (Pg := pG (sP s)) in *.
  destruct (force_loop_spec P L4 G3 G4 LF E4) as (F4 & _ & FI & FE).
  pose proof (BCs_frame _ _ _ _ E5) as F5. destruct (um_shape P G5 G6 E6) as [F6 _].
  pose proof (p_C49_surface_loads P (s_rho S1) G4 G5 Z4 HP) as SL.
  destruct (wipe_geo (sP s) (sG s)) as (W1 & W2 & _ & _ & _ & W6 & W7 & _).
  assert (M1 := p2g_all_mass P L3 (wipe (sP s) (sG s)) G1 (wipe_lens (sP s) (sG s)) E2).
  assert (Q1 := p2g_all_mom P L3 (wipe (sP s) (sG s)) G1 (wipe_lens (sP s) (sG s))).
  rewrite W6, W7 in Q1. specialize (Q1 (go_bv _ _ HG) (go_bh _ _ HG) E2).
  destruct M1 as (Lm1 & _ & M1). destruct Q1 as (Lq1 & Q1).
  unfold frame_all in F1. unfold vis_frame in F3. unfold frame_f in F4. unfold force_frame in F5.
  assert (EM : gm (sG s') = gm G1).
  { rewrite EG. unfold calculate_gammadot. cbn. rewrite F6. cbn. rewrite F5. cbn. rewrite F4. cbn. rewrite F3. reflexivity. }
  assert (EX : forall k, nth k (gext G4) v0 = v0).
  { intros k. rewrite F4. cbn. rewrite F3. cbn. rewrite F1. cbn. rewrite wipe_ext. apply nth_repeat_same. }
  assert (FI3 : gfi G3 = repeat v0 (nodes Pg)). { rewrite F3. cbn. rewrite F1. cbn. apply wipe_fi. }
  assert (FE3 : gfe G3 = repeat v0 (nodes Pg)). { rewrite F3. cbn. rewrite F1. cbn. apply wipe_fe. }
  assert (FI5 : gfi G5 = gfi G4) by (eapply BCs_fi; exact E5).
  assert (EQ5 : gq G5 = gq G1). { rewrite F5. cbn. rewrite F4. cbn. rewrite F3. reflexivity. }
  specialize (SL EX E5). cbv zeta in SL.
  (* velocities and stresses of the located points *)
  assert (RG : Lrel (fun ph p p' => pb p = v0 -> p' = p) (sL s) L1).
  { unfold update_forces in E1. eapply points__rel; [|exact E1]. intros k ph p p' _ _ X HB. injection X as <-. unfold increment_gravity.
    destruct (Nat.eqb k 0); [|reflexivity].
    assert (BZ : body (p_loads P) = v0). { unfold body. change (p_loads P) with (uf (sP s)). rewrite LG. apply v3_ext. intros []; cbn; lra. }
    rewrite BZ, <- HB. destruct p; reflexivity. }
  assert (RL : Lrel (fun ph p p' => p' = locate Pg p /\ in_dom Pg (px p)) (sL s) L3).
  { eapply (Lrel_trans (fun ph p p' => pv p = Own c /\ p' = p)); [| exact R3|].
    - clear - RG HQ. assert (HQ' : all_live (sL s) (fun _ p => pb p = v0 /\ pv p = Own c)) by (intros ph p A B; destruct (HQ ph p A B) as (_ & ? & _ & ?); auto).
      clear HQ. induction RG as [|ph ph' L L' (A1 & A2 & A3 & A4 & A5) RG IH]; constructor.
      + split; [exact A1|]. split; [exact A2|]. split; [exact A3|]. split; [|exact A5].
        assert (X : forall p, In p (live ph) -> pb p = v0 /\ pv p = Own c) by (intros; apply (HQ' ph); [left; auto|auto]).
        clear - A4 X. induction A4 as [|p p' l l' K A4 IH]; constructor; [destruct (X p (or_introl eq_refl)); split; auto|]. apply IH. intros; apply X; right; auto.
      + apply IH. intros q r X Y. apply (HQ' q); [right; exact X|exact Y].
    - cbv beta. intros ph ph' p p1 p2 _ _ _ _ [_ ->] [D ->]. auto. }
  assert (D3 : all_live L3 (fun ph p => s_law (ph_sol ph) = Elastic /\ pv p = Own c /\ pstress p = m0 /\ pb p = v0 /\ located Pg p)).
  { eapply (Lrel_all_live _ (sL s) L3); [exact RL| |exact HQ]. cbv beta. intros ph p ph' p' _ _ ES _ _ [-> D] (X1 & X2 & X3 & X4).
    rewrite ES. split; [exact X1|]. split; [exact X2|]. split; [exact X3|]. split; [exact X4|]. apply locate_located. exact D. }
  (* nodal velocities before the forces *)
  assert (NV : all_live L3 (fun _ p => still P G1 c p)).
  { intros ph p A B r Hr a. set (k := corner_node _ _ r). unfold node_v. rewrite Q1, wipe_q.
    assert (MQ : mom_at P L3 a k = comp a c * mass_at P L3 k).
    { unfold mom_at, mass_at. rewrite <- psum_scal. apply psum_ext. intros ph0 p0 A0 B0. destruct (D3 ph0 p0 A0 B0) as (_ & V & _).
      unfold velocity. rewrite V. lra. }
    rewrite MQ. pose proof (M1 k) as MK. rewrite wipe_m, Rplus_0_l in MK. rewrite MK.
    destruct HC as [->|[WF HH]].
    - destruct (Rltb _ _); [|destruct a; reflexivity]. destruct a; cbn; unfold Rdiv; ring.
    - assert (HV : heavy (sP s) (sG s') k).
      { assert (HH3 : all_live L3 (fun _ p => forall r, (r < 4)%nat -> heavy (sP s) (sG s') (corner_node Pg (cell_node Pg (px p)) r))).
        { eapply (Lrel_all_live _ (sL s) L3); [exact RL| |exact HH]. cbv beta. intros ? ? ? ? _ _ _ _ _ [-> _] X. exact X. }
        apply (HH3 ph p A B r Hr). }
      unfold heavy in HV. rewrite EM, MK in HV. change (p_Mtol (sP s)) with (p_Mtol P) in HV, HM.
      rewrite (proj2 (Rltb_true _ _)) by exact HV. destruct (WF k) as [V0 H0].
      assert (OA : open_a a (roughness (pB P)) (bv (sG s)) (bh (sG s)) k = 1).
      { destruct a; cbn [open_a]; unfold open_x, open_y; rewrite ?V0, ?H0, ?andb_false_r; reflexivity. }
      rewrite OA. destruct a; cbn [comp v0 vx vy vz]; cbn; field; lra. }
  (* stress *)
  assert (RS : Lrel (fun ph p p' => px p' = px p /\ pv p' = pv p /\ pb p' = pb p /\ (s_law (ph_sol ph) = Elastic -> pm p' = pm p) /\
      (s_law (ph_sol ph) = Elastic -> located Pg p -> still P G1 c p -> pstress p' = pstress p)) L3 L4).
  { pose proof (stress_quiet P L3 G1 L4 G3 c HP Lm1 Lq1 E3 Hc) as R5. clear - R4 R5.
    revert R5. induction R4 as [|ph ph' L L' (A1 & A2 & A3 & A4 & A5) R4 IH]; intros R5; inversion R5; subst; constructor; [|apply IH; auto].
    split; [exact A1|]. split; [exact A2|]. split; [exact A3|]. split; [|exact A5].
    match goal with H : _ /\ _ /\ _ /\ Forall2 _ (live ph) (live ph') /\ _ |- _ => destruct H as (_ & _ & _ & B4 & _) end.
    clear - A4 B4. revert B4. induction A4 as [|p p' l l' [X Y] A4 IH]; intros B4; inversion B4; subst; constructor; [|apply IH; auto].
    unfold strained, law_frame in X. split; [rewrite X; reflexivity|]. split; [rewrite X; reflexivity|]. split; [rewrite X; reflexivity|].
    split; [intros Q; apply Y; rewrite Q; discriminate|]. assumption. }
  assert (D4 : all_live L4 (fun ph p => pv p = Own c /\ pstress p = m0 /\ pb p = v0 /\ still P G1 c p)).
  { eapply (Lrel_all_live _ L3 L4 (fun ph p => (s_law (ph_sol ph) = Elastic /\ pv p = Own c /\ pstress p = m0 /\ pb p = v0 /\ located Pg p) /\ still P G1 c p)); [exact RS| |].
    - cbv beta. intros ph p ph' p' _ _ _ _ _ (X1 & X2 & X3 & _ & X4) ((Y1 & Y2 & Y3 & Y4 & Y5) & Y6). rewrite X2, X3, (X4 Y1 Y5 Y6).
      repeat split; auto. unfold still in *. rewrite X1. exact Y6.
    - intros ph p A B. split; [apply (D3 ph p A B)|apply (NV ph p A B)]. }
  (* forces vanish *)
  assert (FZ : forall a k, (k < nodes Pg)%nat -> net_force P G5 a k = 0).
  { intros a k Hk. unfold net_force. rewrite FI5.
    assert (Z0 : comp a (nth k (gfi G4) v0) = 0).
    { rewrite FI, FI3, nth_repeat_same, psum_zero; [destruct a; cbn; lra|]. intros ph p A B. destruct (D4 ph p A B) as (_ & X & _).
      unfold fint_at. apply fsum_zero. intros r Hr. rewrite X, mv_zero. lra. }
    assert (Z1 : forall b, comp b (nth k (gfe G4) v0) = 0).
    { intros b. rewrite FE, FE3, nth_repeat_same, psum_zero; [destruct b; cbn; lra|]. intros ph p A B. destruct (D4 ph p A B) as (_ & _ & X & _).
      rewrite X. destruct b; cbn; lra. }
    destruct (SL k Hk) as (A1 & A2 & A3). pose proof (Z1 AX) as ZX. pose proof (Z1 AY) as ZY. pose proof (Z1 AZ) as ZZ. cbn [comp] in ZX, ZY, ZZ.
    change (pB P) with (pB (sP s)) in A1, A2. change (p_loads P) with (uf (sP s)) in A1, A2.
    assert (PZ : forall n i, push n i 0 = 0). { intros n i. unfold push. destruct (Nat.eqb i 0), (Nat.eqb i (n - 1)); lra. }
    assert (Z2 : comp a (nth k (gfe G5) v0) = 0).
    { destruct a; cbn [comp].
      - rewrite A1, ZX. destruct (horizontal_force (pB (sP s))); [|lra]. rewrite (LH eq_refl), PZ. unfold Rdiv. ring.
      - rewrite A2, ZY. destruct (vertical_force (pB (sP s))); [|lra]. rewrite (LV eq_refl), PZ. unfold Rdiv. ring.
      - rewrite A3. exact ZZ. }
    rewrite Z0, Z2. lra. }
  assert (QD : forall a k, (k < nodes Pg)%nat -> comp a (nth k (gqd G6) v0) = 0).
  { intros a k Hk. rewrite (no_rub_rate P G5 G6 Z5 E6 NR), FZ by exact Hk. lra. }
  assert (QQ : forall a k, (k < nodes Pg)%nat -> comp a (nth k (gq G6) v0) = comp a (nth k (gq G1) v0)).
  { intros a k Hk. destruct (um_q P G5 G6 Z5 E6 k Hk) as [U1 U2]. assert (CP : conveyor (pB P) = false) by exact Hv. rewrite CP in U1. cbn [andb] in U1.
    rewrite EQ5 in U1, U2. destruct a; [cbn [comp]; rewrite U1; pose proof (QD AX k Hk) as Z; cbn [comp] in Z; rewrite Z; lra|rewrite U2, QD by (discriminate || exact Hk); lra..]. }
  assert (EM6 : gm G6 = gm G1). { rewrite F6. cbn. rewrite F5. cbn. rewrite F4. cbn. rewrite F3. reflexivity. }
  assert (NV6 : forall a k, (k < nodes Pg)%nat -> node_v P G6 a k = node_v P G1 a k).
  { intros a k Hk. unfold node_v. rewrite EM6, QQ by exact Hk. reflexivity. }
  assert (NA6 : forall a k, (k < nodes Pg)%nat -> node_acc P G6 a k = 0).
  { intros a k Hk. unfold node_acc. rewrite QD by exact Hk. destruct (Rltb _ _); [unfold Rdiv; ring|reflexivity]. }
  (* assemble *)
  split.
  2:{ intros Z a k Hk. assert (EQ : gq (sG s') = gq G6) by (rewrite EG; reflexivity). rewrite EQ, QQ by exact Hk. rewrite Q1, wipe_q.
      assert (MQ : mom_at P L3 a k = 0).
      { unfold mom_at. apply psum_zero. intros ph0 p0 A0 B0. destruct (D3 ph0 p0 A0 B0) as (_ & V & _). unfold velocity. rewrite V, Z. destruct a; cbn; lra. }
      rewrite MQ. destruct a; cbn; lra. }
  assert (IO : inout P L5 = Ok L5).
  { unfold inout. change (pB P) with (pB (sP s)). rewrite O1, O2, I1, I2, Hc. reflexivity. }
  rewrite IO in EI. injection EI as EI. rewrite <- EI.
  assert (RA : Lrel (fun ph p p' => s_law (ph_sol ph) = Elastic /\ px p' = px p /\ pv p' = Own c /\ pstress p' = m0 /\ pb p' = v0 /\ pm p' = pm p /\ located Pg p' /\ still P G1 c p') (sL s) L4).
  { assert (RA : Lrel (fun ph p p' => px p' = px p /\ pm p' = pm p) (sL s) L4).
    { eapply Lrel_trans; [exact RL| exact RS|]. cbv beta. intros ph ph' p p1 p2 A _ ES _ [-> D] (X1 & _ & _ & X2 & _).
      rewrite ES in X2. rewrite X2 by (apply HL; exact A). rewrite X1. split; reflexivity. }
    clear - RA D4 Lo HL. induction RA as [|ph ph' L L' (A1 & A2 & A3 & A4 & A5) RA IH]; constructor.
    - split; [exact A1|]. split; [exact A2|]. split; [exact A3|]. split; [|exact A5].
      assert (HE : s_law (ph_sol ph) = Elastic) by (apply HL; left; reflexivity).
      assert (X : forall p, In p (live ph') -> (pv p = Own c /\ pstress p = m0 /\ pb p = v0 /\ still P G1 c p) /\ located Pg p).
      { intros p Hp. split; [apply (D4 ph'); [left; auto|auto]|apply (Lo ph'); [left; auto|auto]]. }
      clear - A4 X HE. induction A4 as [|p p' l l' [K1 K2] A4 IH]; constructor.
      + destruct (X p' (or_introl eq_refl)) as ((Y1 & Y2 & Y3 & Y4) & Y5). repeat split; auto; apply Y5.
      + apply IH. intros; apply X; right; auto.
    - apply IH; [intros q X; apply HL; right; exact X|intros q r X Y; apply (Lo q); [right; exact X|exact Y]|intros q r X Y; apply (D4 q); [right; exact X|exact Y]]. }
  assert (HL4 : forall ph, In ph L4 -> is_rigid (s_law (ph_sol ph)) = false).
  { intros ph Hph. destruct (map_in_sol (sL s) L4 ph (Lrel_sol _ _ _ RA) Hph) as (ph0 & A & <-). rewrite (HL ph0 A). reflexivity. }
  assert (RB : Forall2 (fun ph ph' => is_rigid (s_law (ph_sol ph)) = false /\ phase_moved P G6 ph ph') L4 L5)
    by (apply Forall2_conj_l; assumption).
  eapply Forall2_imp; [|exact (Forall2_comp _ _ _ _ _ RA RB)].
  cbv beta. intros ph ph2 (ph1 & (A1 & A2 & A3 & A4 & A5) & (IR & B1 & B2 & B3 & B4 & _)).
  split; [congruence|]. split; [congruence|]. split; [congruence|]. rewrite IR in B4.
  eapply Forall2_imp; [|exact (Forall2_comp _ _ _ _ _ A4 B4)].
  cbv beta. intros p p2 (p1 & (X0 & X1 & X2 & X3 & X4 & X5 & X6 & X7) & (Y1 & Y2 & Y3)).
  rewrite X2 in Y3. destruct Y3 as (v' & V1 & V2).
  assert (PX : forall a, comp a (px p2) = comp a (px p) + p_dt (sP s) * comp a c).
  { intros a. rewrite Y2, X1. f_equal. f_equal. rewrite <- X1.
    rewrite (fsum_ext _ _ (fun k => hat Pg (px p1) k * node_v P G1 a k)) by (intros k Hk; rewrite NV6 by exact Hk; reflexivity).
    transitivity (fsum 4 (fun r => node_v P G1 a (corner_node (pG P) (cell_node (pG P) (px p1)) r) * Nr p1 r)); [symmetry; exact (corner_sum P p1 (node_v P G1 a) HP X6)|].
    rewrite (fsum_ext _ _ (fun r => comp a c * Nr p1 r)) by (intros r Hr; rewrite (X7 r Hr); reflexivity).
    rewrite (fsum_scal _ _ (fun r => Nr p1 r)).
    rewrite (fsum_ext _ _ (wN (cell_w Pg) (cell_h Pg) (loc Pg (px p1)))) by (intros; apply (located_N Pg p1); exact X6).
    pose proof (cell_w_pos _ HP). pose proof (cell_h_pos _ HP). rewrite shape_unity by lra. lra. }
  assert (VZ : v' = c).
  { apply v3_ext. intros a. rewrite V2. rewrite fsum_zero by (intros k Hk; rewrite NA6 by exact Hk; lra). lra. }
  split; [apply v3_ext; intros a; rewrite comp_vadd, comp_vscale; apply PX|].
  split; [rewrite V1, VZ; reflexivity|]. rewrite Y1. cbn [pstress pb pm set]. auto.
Qed.

(** Uniform motion: with every corner of every occupied cell heavy, a step
    translates each particle by [dt c] and changes no velocity and no stress. *)
Lemma p_C55_uniform_motion : forall uf fill s s' c, proper (pG (sP s)) -> grid_ok (pG (sP s)) (sG s) ->
  all_live (sL s) (fun _ p => in_dom (pG (sP s)) (px p)) -> shut (sP s) -> no_rub (pB (sP s)) ->
  0 <= p_Mtol (sP s) -> (forall ph, In ph (sL s) -> s_law (ph_sol ph) = Elastic) ->
  drifting c (sL s) -> unloaded (sP s) (uf (sP s)) -> wall_free (bv (sG s)) (bh (sG s)) ->
  time_march uf fill s = Ok s' ->
  all_live (sL s) (fun _ p => forall r, (r < 4)%nat -> heavy (sP s) (sG s') (corner_node (pG (sP s)) (cell_node (pG (sP s)) (px p)) r)) ->
  Prel (fun _ p p' => px p' = vadd (px p) (vscale (p_dt (sP s)) c) /\ pv p' = Own c /\ pstress p' = m0 /\ pb p' = v0 /\ pm p' = pm p) (sL s) (sL s').
Proof. intros. eapply (quiet_step uf fill s s' c); eauto. Qed.

(** A body at rest, whatever the walls and however light the nodes, is left alone. *)
Lemma p_C59_step : forall uf fill s s', proper (pG (sP s)) -> grid_ok (pG (sP s)) (sG s) ->
  all_live (sL s) (fun _ p => in_dom (pG (sP s)) (px p)) -> shut (sP s) -> no_rub (pB (sP s)) ->
  0 <= p_Mtol (sP s) -> (forall ph, In ph (sL s) -> s_law (ph_sol ph) = Elastic) ->
  drifting v0 (sL s) -> unloaded (sP s) (uf (sP s)) ->
  time_march uf fill s = Ok s' ->
  Prel (fun _ p p' => px p' = px p /\ pv p' = Own v0 /\ pstress p' = m0 /\ pb p' = v0 /\ pm p' = pm p) (sL s) (sL s').
Proof.
  intros uf fill s s' HP HG HD HS NR HM HL HQ HU E.
  pose proof (quiet_step uf fill s s' v0 HP HG HD HS NR HM HL HQ HU E (or_introl eq_refl)) as [Q _].
  eapply Forall2_imp; [|exact Q]. cbv beta. intros ph ph' (A1 & A2 & A3 & A4). do 3 (split; [assumption|]).
  eapply Forall2_imp; [|exact A4]. cbv beta. intros p p' (B1 & B2). split; [|exact B2].
  rewrite B1. apply v3_ext. intros a. rewrite comp_vadd, comp_vscale. destruct a; cbn; lra.
Qed.

Lemma Prel_trans (Q : particle R -> particle R -> Prop) L L' L'' : (forall p q r, Q p q -> Q q r -> Q p r) ->
  Prel (fun _ => Q) L L' -> Prel (fun _ => Q) L' L'' -> Prel (fun _ => Q) L L''.
Proof.
  intros HT A B. eapply Forall2_imp; [|exact (Forall2_comp _ _ _ _ _ A B)]. cbv beta.
  intros ph ph2 (ph1 & (A1 & A2 & A3 & A4) & (B1 & B2 & B3 & B4)). do 3 (split; [congruence|]).
  eapply Forall2_imp; [|exact (Forall2_comp _ _ _ _ _ A4 B4)]. cbv beta. intros p r (q & X & Y). eauto.
Qed.
Lemma Prel_sol Q L L' : Prel Q L L' -> map ph_sol L' = map ph_sol L.
Proof. induction 1 as [|ph ph' L L' (E1 & _) H IH]; cbn; [reflexivity|]. rewrite E1, IH. reflexivity. Qed.

(** However many steps are taken. *)
Lemma p_C59_history : forall uf fill s, proper (pG (sP s)) -> grid_ok (pG (sP s)) (sG s) ->
  all_live (sL s) (fun _ p => in_dom (pG (sP s)) (px p)) -> shut (sP s) -> no_rub (pB (sP s)) ->
  0 <= p_Mtol (sP s) -> (forall ph, In ph (sL s) -> s_law (ph_sol ph) = Elastic) ->
  drifting v0 (sL s) -> (forall P, unloaded (sP s) (uf P)) ->
  forall s', reach uf fill s s' ->
  Prel (fun _ p p' => px p' = px p /\ pv p' = Own v0 /\ pstress p' = m0 /\ pm p' = pm p) (sL s) (sL s') /\
  grid_ok (pG (sP s)) (sG s').
Proof.
  intros uf fill s HP HG HD HS NR HM HL HQ HU s' R.
  cut (Prel (fun _ p p' => px p' = px p /\ pv p' = Own v0 /\ pstress p' = m0 /\ pb p' = v0 /\ pm p' = pm p) (sL s) (sL s') /\ grid_ok (pG (sP s)) (sG s')).
  { intros [A B]. split; [|exact B]. eapply Forall2_imp; [|exact A]. cbv beta. intros ph ph' (A1 & A2 & A3 & A4). do 3 (split; [assumption|]).
    eapply Forall2_imp; [|exact A4]. cbv beta. tauto. }
  induction R as [|s1 tr s2 tr' R IH E].
  - split; [|exact HG]. clear - HQ. assert (Q : forall L, drifting v0 L -> Prel (fun _ p p' => px p' = px p /\ pv p' = Own v0 /\ pstress p' = m0 /\ pb p' = v0 /\ pm p' = pm p) L L).
    { induction L as [|ph L IH]; intros H; constructor.
      - do 3 (split; [reflexivity|]). assert (X : forall p, In p (live ph) -> pv p = Own v0 /\ pstress p = m0 /\ pb p = v0) by (intros p Hp; destruct (H ph p (or_introl eq_refl) Hp) as (_ & ?); auto).
        revert X. generalize (live ph). induction l as [|p l IHl]; intros X; constructor; [destruct (X p (or_introl eq_refl)) as (? & ? & ?); auto|].
        apply IHl. intros; apply X; right; auto.
      - apply IH. intros q r A B. apply (H q r); [right; exact A|exact B]. }
    apply Q; exact HQ.
  - destruct IH as [IH1 IH2]. destruct (reach_const uf fill s s1 R) as (CG & CB & CS & CM).
    destruct (pass_inv uf fill _ _ _ _ E) as (s3 & dt & E3 & EL & EG & EP).
    assert (DR : drifting v0 (sL s1) /\ all_live (sL s1) (fun _ p => in_dom (pG (sP s1)) (px p))).
    { split.
      - eapply Prel_all_live; [exact IH1| |exact HQ]. cbv beta. intros ph ph' p p' _ _ ES (X1 & X2 & X3 & X4 & _) (Y & _). rewrite ES. auto.
      - rewrite CG. eapply Prel_all_live; [exact IH1| |exact HD]. cbv beta. intros ph ph' p p' _ _ _ (X1 & _) Y. rewrite X1. exact Y. }
    destruct DR as [DR DD].
    assert (HL1 : forall ph, In ph (sL s1) -> s_law (ph_sol ph) = Elastic).
    { intros ph Hph. destruct (map_in_sol (sL s) (sL s1) ph (Prel_sol _ _ _ IH1) Hph) as (ph0 & A & <-). apply HL; exact A. }
    assert (SH : shut (sP s1)). { unfold shut in *. rewrite CB, CS. exact HS. }
    assert (U1 : unloaded (sP s1) (uf (sP s1))). { destruct (HU (sP s1)) as (A & B & C). unfold unloaded. rewrite CB. auto. }
    rewrite EL, EG. split.
    + eapply (Prel_trans (fun p p' => px p' = px p /\ pv p' = Own v0 /\ pstress p' = m0 /\ pb p' = v0 /\ pm p' = pm p)); [|exact IH1|].
      * intros p q r (A1 & A2 & A3 & A4 & A5) (B1 & B2 & B3 & B4 & B5). repeat split; congruence.
      * apply (p_C59_step uf fill s1 s3); auto; rewrite ?CG, ?CB, ?CM; auto.
    + rewrite <- CG. apply (march_geo uf fill s1 s3); auto; rewrite ?CG, ?CB, ?CS; auto; apply HS.
Qed.

(** The examples: two stress-free elastic points moving with velocity [c]. *)
Definition dr_L (c : V3 R) : list (phase R) :=
  [mkPhase (ex_solid Elastic) 2 v0 [ex_particle (1/2) (1/2) c m0; ex_particle (3/2) (5/4) c m0]].
Definition no_loads (_ : params R) : loads R := mkLoads 0 0 0 0.
Definition dr_state (B : bounds R) (G : grid R) (c : V3 R) : state R := mkState (ex_params B) G (dr_L c).
Lemma dr_in c : all_live (dr_L c) (fun _ p => exists ph0 p0, In ph0 (ex_L Elastic) /\ In p0 (live ph0) /\ px p0 = px p /\ pm p = pm p0).
Proof.
  intros ph p [<-|[]] [<-|[<-|[]]]; exists (ex_phase Elastic); [exists ex_p1|exists ex_p2];
    (split; [left; reflexivity|]); (split; [cbn; auto|]); split; try reflexivity; apply v3_ext; intros []; cbn; lra.
Qed.
Lemma dr_dom c : all_live (dr_L c) (fun _ p => inside ex_gridp (px p)).
Proof. intros ph p [<-|[]] [<-|[<-|[]]]; unfold inside; cbn; lra. Qed.
Lemma dr_dom' c : all_live (dr_L c) (fun _ p => in_dom ex_gridp (px p)).
Proof. intros ph p A B. destruct (dr_dom c ph p A B). unfold in_dom. lra. Qed.
Lemma dr_drift c : drifting c (dr_L c).
Proof. intros ph p [<-|[]] [<-|[<-|[]]]; repeat split. Qed.
Lemma dr_heavy uf fill B G c s' : grid_ok ex_gridp G -> shut (ex_params B) ->
  time_march uf fill (dr_state B G c) = Ok s' ->
  all_live (dr_L c) (fun _ p => forall r, (r < 4)%nat ->
    heavy (ex_params B) (sG s') (corner_node ex_gridp (cell_node ex_gridp (px p)) r)).
Proof.
  intros OK HS E ph p A C r Hr. unfold heavy.
  rewrite (march_mass uf fill (dr_state B G c) s' ex_proper OK (dr_dom' c) HS E).
  cbn [dr_state sL sP ex_params pG p_Mtol].
  destruct (dr_in c ph p A C) as (ph0 & p0 & A0 & C0 & X & Y).
  pose proof (ex_hat Elastic ph0 p0 A0 C0 r Hr) as H8. rewrite X in H8. set (k := corner_node _ _ r) in *.
  assert (M : forall ph p, In ph (dr_L c) -> In p (live ph) -> pm p = 2).
  { intros ph1 p1 [<-|[]] [<-|[<-|[]]]; cbn; lra. }
  apply Rlt_le_trans with (pm p * hat ex_gridp (px p) k).
  - rewrite (M ph p A C). cbn. lra.
  - apply (psum_ge_elem (dr_L c) (fun _ p => pm p * hat ex_gridp (px p) k) ph p); auto.
    intros ph1 p1 A1 C1. rewrite (M ph1 p1 A1 C1). pose proof (hat_nonneg ex_gridp (px p1) k). lra.
Qed.
Lemma dr_ready B G c : grid_ok ex_gridp G -> conveyor B = false -> inlet_right B = false -> inlet_top B = false ->
  ready (dr_state B G c).
Proof.
  intros OK H1 H2 H3. constructor; cbn [dr_state sP sG sL ex_params pG pB p_intruder_v p_v0 p_aniso p_seg pdx ex_gridp p_check].
  - exact ex_proper.
  - exact OK.
  - intros ph [<-|[]]. reflexivity.
  - intros ph p A C. split; [apply (dr_dom' c ph p A C)|]. discriminate.
  - exists (ex_solid Elastic). split; [reflexivity|]. intros ph [<-|[]]. cbn [ph_sol].
    unfold equipped, has. cbn; repeat split; discriminate.
  - intros ph [<-|[]]. cbn; discriminate.
  - rewrite H1. discriminate.
  - left; reflexivity.
  - reflexivity.
  - split; assumption.
  - intros _. discriminate.
Qed.
Lemma no_walls G : grid_init (ex_gridp (T := R)) ex_bounds = Ok G -> grid_ok ex_gridp G -> wall_free (bv G) (bh G).
Proof.
  intros EG OK k. destruct (Nat.lt_ge_cases k 12) as [Hk|Hk].
  - destruct (p_C10_wall_masks R Num_R ex_gridp ex_bounds G EG) with (k := k) as (X & Y & _); [repeat split; reflexivity|exact Hk|].
    cbn [has_bottom has_top has_left has_right no_slip_bottom ex_bounds set] in X, Y.
    split; [destruct (nth k (bv G) false); [|reflexivity]|destruct (nth k (bh G) false); [|reflexivity]]; exfalso.
    + destruct (proj1 Y eq_refl) as [[_ Q]|[[_ Q]|[_ Q]]]; discriminate.
    + destruct (proj1 X eq_refl) as [[_ Q]|[_ Q]]; discriminate.
  - destruct OK. rewrite !nth_overflow; [split; reflexivity|rewrite go_bh; exact Hk|rewrite go_bv; exact Hk].
Qed.
Lemma box_closed G : grid_init (ex_gridp (T := R)) ex_box = Ok G -> closed (ex_gridp (T := R)) G.
Proof.
  intros EG k Hk. destruct (p_C10_wall_masks R Num_R ex_gridp ex_box G EG) with (k := k) as (A & B & _); [repeat split; reflexivity|exact Hk|].
  cbn [has_bottom has_top has_left has_right no_slip_bottom ex_box] in A, B.
  split; intros [C|C]; [apply B|apply B|apply A|apply A]; auto.
Qed.

Example x_C55_uniform_motion : forall fill c, exists s s', proper (pG (sP s)) /\ grid_ok (pG (sP s)) (sG s) /\
  all_live (sL s) (fun _ p => in_dom (pG (sP s)) (px p)) /\ shut (sP s) /\ no_rub (pB (sP s)) /\ 0 <= p_Mtol (sP s) /\
  (forall ph, In ph (sL s) -> s_law (ph_sol ph) = Elastic) /\ drifting c (sL s) /\ unloaded (sP s) (no_loads (sP s)) /\
  wall_free (bv (sG s)) (bh (sG s)) /\ time_march no_loads fill s = Ok s' /\ (length (concat (map live (sL s))) = 2)%nat /\
  all_live (sL s) (fun _ p => forall r, (r < 4)%nat -> heavy (sP s) (sG s') (corner_node (pG (sP s)) (cell_node (pG (sP s)) (px p)) r)).
Proof.
  intros fill c. destruct (grid_init_ok ex_gridp ex_bounds ex_proper) as (G & EG & OK).
  destruct (march_total no_loads fill _ (dr_ready ex_bounds G c OK eq_refl eq_refl eq_refl)) as [s' E].
  assert (SH : shut (ex_params (T := R) ex_bounds)) by (repeat split; reflexivity).
  exists (dr_state ex_bounds G c), s'.
  split; [exact ex_proper|]. split; [exact OK|]. split; [exact (dr_dom' c)|]. split; [exact SH|]. split; [left; reflexivity|].
  split; [cbn; lra|]. split; [intros ph [<-|[]]; reflexivity|]. split; [exact (dr_drift c)|].
  split; [repeat split; reflexivity|]. split; [exact (no_walls G EG OK)|]. split; [exact E|]. split; [reflexivity|].
  exact (dr_heavy no_loads fill ex_bounds G c s' OK SH E).
Qed.

(** A body at rest in a closed box: C59 applies, the run satisfies the CFL
    condition for ever, so C14 applies as well. *)
Lemma rest_cfl uf fill s : proper (pG (sP s)) -> grid_ok (pG (sP s)) (sG s) ->
  all_live (sL s) (fun _ p => in_dom (pG (sP s)) (px p)) -> shut (sP s) -> no_rub (pB (sP s)) ->
  0 <= p_Mtol (sP s) -> (forall ph, In ph (sL s) -> s_law (ph_sol ph) = Elastic) ->
  drifting v0 (sL s) -> (forall ph p, In ph (sL s) -> In p (live ph) -> True) -> (forall P, unloaded (sP s) (uf P)) ->
  p_dynamic (sP s) = false -> 0 <= p_dt (sP s) -> cfl_held uf fill s.
Proof.
  intros HP HG HD HS NR HM HL HQ _ HU Hd Hdt s1 tr s2 tr' R E.
  destruct (p_C59_history uf fill s HP HG HD HS NR HM HL HQ HU s1 R) as [PR G1].
  destruct (reach_const uf fill s s1 R) as (CG & CB & CS & CM).
  assert (DT : p_dt (sP s1) = p_dt (sP s) /\ p_dynamic (sP s1) = false).
  { clear - R Hd. induction R as [|s1 tr s2 tr' R IH E]; [auto|]. destruct IH as [I1 I2].
    unfold pass in E. apply bind_ok in E. destruct E as (s3 & E3 & E). pose proof (step_params _ _ _ _ E3) as EP. cbv zeta in E.
    destruct (p_tf (sP s3) =? n0)%num; [discriminate|]. apply bind_ok in E. destruct E as (b & _ & E).
    apply bind_ok in E. destruct E as (dt & ED & E). injection E as <- _. cbn [sP set].
    assert (PD : p_dynamic (sP s3) = false) by (rewrite EP; exact I2).
    match type of ED with (if ?c then _ else _) = _ => assert (Z : c = false) by exact PD; rewrite Z in ED end. injection ED as <-.
    split; [|exact PD]. cbn [p_dt set]. rewrite EP. exact I1. }
  destruct DT as [DT _]. split; [rewrite DT; exact Hdt|].
  destruct (pass_inv uf fill _ _ _ _ E) as (s3 & dt & E3 & EL & EG & EP). rewrite EG.
  intros k Hk Hm.
  assert (Q : forall a, comp a (nth k (gq (sG s3)) v0) = 0).
  { assert (DR : all_live (sL s1) (fun ph p => in_dom (pG (sP s1)) (px p)) /\ (forall ph, In ph (sL s1) -> s_law (ph_sol ph) = Elastic)).
    { split.
      - rewrite CG. eapply Prel_all_live; [exact PR| |exact HD]. cbv beta. intros ph ph' p p' _ _ _ (X1 & _) Y. rewrite X1. exact Y.
      - intros ph Hph. destruct (map_in_sol (sL s) (sL s1) ph (Prel_sol _ _ _ PR) Hph) as (ph0 & A & <-). apply HL; exact A. }
    destruct DR as [DD HL1].
    assert (SH : shut (sP s1)). { unfold shut in *. rewrite CB, CS. exact HS. }
    assert (U1 : unloaded (sP s1) (uf (sP s1))). { destruct (HU (sP s1)) as (A & B & C). unfold unloaded. rewrite CB. auto. }
    assert (DR : drifting v0 (sL s1)).
    { (* body forces: from the full history statement *)
      clear - R HP HG HD HS NR HM HL HQ HU. induction R as [|s1 tr s2 tr' R IH E]; [exact HQ|].
      destruct (p_C59_history uf fill s HP HG HD HS NR HM HL HQ HU s1 R) as [PR G1].
      destruct (reach_const uf fill s s1 R) as (CG & CB & CS & CM).
      destruct (pass_inv uf fill _ _ _ _ E) as (s3 & dt & E3 & EL & EG & EP). rewrite EL.
      assert (HL1 : forall ph, In ph (sL s1) -> s_law (ph_sol ph) = Elastic).
      { intros ph Hph. destruct (map_in_sol (sL s) (sL s1) ph (Prel_sol _ _ _ PR) Hph) as (ph0 & A & <-). apply HL; exact A. }
      assert (PS : Prel (fun _ p p' => px p' = px p /\ pv p' = Own v0 /\ pstress p' = m0 /\ pb p' = v0 /\ pm p' = pm p) (sL s1) (sL s3)).
      { apply (p_C59_step uf fill s1 s3); auto.
        - rewrite CG; exact HP.
        - rewrite CG; exact G1.
        - rewrite CG. eapply Prel_all_live; [exact PR| |exact HD]. cbv beta. intros ph ph' p p' _ _ _ (X1 & _) Y. rewrite X1. exact Y.
        - unfold shut in *. rewrite CB, CS. exact HS.
        - rewrite CB; exact NR.
        - rewrite CM; exact HM.
        - destruct (HU (sP s1)) as (A & B & C). unfold unloaded. rewrite CB. auto. }
      eapply Prel_all_live; [exact PS| |exact IH]. cbv beta. intros ph ph' p p' _ _ ES (X1 & X2 & X3 & X4 & _) (Y & _). rewrite ES. auto. }
    rewrite <- CG in HP, G1. rewrite <- CB in NR. rewrite <- CM in HM.
    destruct (quiet_step uf fill s1 s3 v0 HP G1 DD SH NR HM HL1 DR U1 E3 (or_introl eq_refl)) as [_ Z].
    intros a. apply Z; [reflexivity|exact Hk]. }
  pose proof (Q AX) as QX. pose proof (Q AY) as QY. cbn [comp] in QX, QY. rewrite QX, QY.
  rewrite <- CG in HP. pose proof (cell_w_pos _ HP). pose proof (cell_h_pos _ HP).
  unfold Rdiv. rewrite Rmult_0_l, Rabs_R0. lra.
Qed.
Example x_C14_never_aborts : forall fill, exists s, boxed s /\ runnable s /\ cfl_held no_loads fill s /\
  (length (concat (map live (sL s))) = 2)%nat.
Proof.
  intros fill. destruct (grid_init_ok ex_gridp ex_box ex_proper) as (G & EG & OK).
  assert (SH : shut (ex_params (T := R) ex_box)) by (repeat split; reflexivity).
  exists (dr_state ex_box G v0). split; [|split; [|split; [|reflexivity]]].
  - constructor; cbn [dr_state sP sG sL ex_params pG pB p_seg].
    + exact ex_proper.
    + exact OK.
    + reflexivity.
    + repeat split; reflexivity.
    + intros ph [<-|[]]. reflexivity.
    + intros ph [<-|[]]. cbn; discriminate.
    + exact (box_closed G EG).
    + exact (dr_dom v0).
  - constructor; cbn [dr_state sP sG sL ex_params p_check p_aniso p_dynamic p_tf p_savetime]; try reflexivity; try (cbn; lra).
    exists (ex_solid Elastic). split; [reflexivity|]. intros ph [<-|[]]. unfold equipped, has. cbn; repeat split; discriminate.
  - apply rest_cfl; auto.
    + exact ex_proper.
    + exact (dr_dom' v0).
    + left; reflexivity.
    + cbn; lra.
    + intros ph [<-|[]]. reflexivity.
    + exact (dr_drift v0).
    + intros P. repeat split; reflexivity.
    + cbn; lra.
Qed.
Example x_C59_history : forall fill, exists s s', drifting v0 (sL s) /\ closed (pG (sP s)) (sG s) /\ reach no_loads fill s s' /\ s' <> s.
Proof.
  intros fill. destruct (grid_init_ok ex_gridp ex_box ex_proper) as (G & EG & OK).
  pose proof (dr_ready ex_box G v0 OK eq_refl eq_refl eq_refl) as HR.
  destruct (p_C58_pass_total no_loads fill _ [] HR) as [[s' tr'] E]; [reflexivity|cbn; lra|cbn; lra|].
  exists (dr_state ex_box G v0), s'. split; [exact (dr_drift v0)|]. split; [exact (box_closed G EG)|].
  split; [eapply reach_S; [apply reach_0|exact E]|].
  destruct (pass_inv no_loads fill _ _ _ _ E) as (s3 & dt & _ & _ & _ & EP). intros Q. rewrite Q in EP.
  apply (f_equal p_t) in EP. cbn in EP. lra.
Qed.
