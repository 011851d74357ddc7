(** * The density near a free surface: C142 *)
From Coq Require Import ZArith Reals List Bool Arith Lra Lia.
From Verif Require Import State NumR Spec SpecLaws SpecStep SpecScheme SpecRing LibList LibR ModelGrid ModelInputs ModelConstit ModelParticle ModelMPList
  ModelIntegr ModelMain ProofsGrid ProofsMap ProofsP2G ProofsWalls ProofsLaws ProofsInOut ProofsHist Concrete
  ThmMapping ThmWalls ThmLaws ThmInOut ThmHist ProofsStep ProofsPoints ThmStep ThmBalance ThmEnergy ThmFall ThmGeo ProofsScheme ThmScheme
  ThmDensity ProofsRing ThmRing ProofsFill ThmFill ThmFields ThmRheo ThmSift.
Import ListNotations.
Local Open Scope R_scope.

Lemma Forall2_weaken {A B} (Q Q' : A -> B -> Prop) l l' : Forall2 Q l l' -> (forall a b, In a l -> Q a b -> Q' a b) -> Forall2 Q' l l'.
Proof.
  intros H. induction H as [|a b l l' Hab Hl IH]; intros HW; constructor.
  - apply HW; [left; reflexivity|exact Hab].
  - apply IH. intros a' b' Ha. apply HW. right. exact Ha.
Qed.
Lemma Prel_weaken (Q Q' : phase R -> particle R -> particle R -> Prop) L L' : Prel Q L L' -> (forall ph p p', In ph L -> In p (live ph) -> Q ph p p' -> Q' ph p p') -> Prel Q' L L'.
Proof.
  intros H HW. unfold Prel in *. eapply Forall2_weaken; [exact H|]. intros ph ph' A (E1 & E2 & E3 & F). split; [exact E1|]. split; [exact E2|]. split; [exact E3|].
  eapply Forall2_weaken; [exact F|]. intros p p' B. apply HW; assumption.
Qed.

(** How deep a point of a layer of [rows] rows of cells lies, in cells. *)
Definition depth (Pg : gridp R) (rows : nat) (x : V3 R) : R := (y_m Pg + INR rows * cell_h Pg - vy x) / cell_h Pg.
Lemma under_surface Pg rows x r : proper Pg -> in_dom Pg x -> 0 < depth Pg rows x ->
  fsum (nodes Pg) (fun k => hat Pg x k * (if Nat.ltb (row Pg k) rows then r else if Nat.eqb (row Pg k) rows then r / 2 else 0)) =
  if Rle_dec 1 (depth Pg rows x) then r else r * ((1 + depth Pg rows x) / 2).
Proof.
  intros HP HD Hu. destruct (hat_sums Pg x HP HD) as (U & _ & Y). change (fsum (nodes Pg) (hat Pg x) = 1) in U. pose proof (cell_h_pos _ HP) as Hh.
  assert (Z : forall k, (vy x - node_y Pg k) / cell_h Pg = INR rows - INR (row Pg k) - depth Pg rows x) by (intros k; unfold depth, node_y; field; lra).
  assert (H0 : forall k, INR rows - INR (row Pg k) - depth Pg rows x <= -1 \/ 1 <= INR rows - INR (row Pg k) - depth Pg rows x -> hat Pg x k = 0)
    by (intros k Hk; unfold hat; rewrite Z, (tent_far _ Hk); ring).
  destruct (Rle_dec 1 (depth Pg rows x)) as [D|D].
  - rewrite (fsum_ext _ _ (fun k => r * hat Pg x k)); [rewrite fsum_scal; change (fun i => hat Pg x i) with (hat Pg x); rewrite U; ring|]. intros k _.
    destruct (Nat.ltb_spec (row Pg k) rows) as [L|L]; [ring|]. rewrite (H0 k); [ring|]. left. apply le_INR in L. lra.
  - rewrite (fsum_ext _ _ (fun k => r / 2 * (1 + (y_m Pg + INR rows * cell_h Pg) / cell_h Pg) * hat Pg x k + - (r / 2 / cell_h Pg) * (hat Pg x k * node_y Pg k))).
    { rewrite fsum_plus, !fsum_scal. change (fun i => hat Pg x i) with (hat Pg x). rewrite U, Y. unfold depth. field. lra. }
    intros k _.
    assert (A : r / 2 * (1 + (y_m Pg + INR rows * cell_h Pg) / cell_h Pg) * hat Pg x k + - (r / 2 / cell_h Pg) * (hat Pg x k * node_y Pg k) = hat Pg x k * (r / 2 * (1 + (INR rows - INR (row Pg k))))) by (unfold node_y; field; lra).
    rewrite A. clear A.
    destruct (Nat.ltb_spec (row Pg k) rows) as [L|L].
    + destruct (Nat.eq_dec rows (S (row Pg k))) as [-> | N]; [rewrite S_INR; field|].
      rewrite (H0 k); [ring|]. right. assert (M : (S (S (row Pg k)) <= rows)%nat) by lia. apply le_INR in M. rewrite !S_INR in M. lra.
    + destruct (Nat.eqb_spec (row Pg k) rows) as [-> | N]; [field|].
      rewrite (H0 k); [ring|]. left. assert (M : (S rows <= row Pg k)%nat) by lia. apply le_INR in M. rewrite S_INR in M. lra.
Qed.

(** ** C142 *)
(** A layer that fills its cells evenly: after the first step its points have
    the density of the material only if they lie a cell or more below the surface;
    above, the density falls, in a straight line, to half of it. *)
Lemma p_C142_depth : forall uf fill (P : params R) (G : grid R) c rows So sv L (s' : state R),
  proper (pG P) -> grid_init (pG P) (pB P) = Ok G -> shut P -> (1 <= c)%nat -> (1 <= rows < ny (pG P) - 1)%nat -> 0 < thickness (pG P) -> s_law So <> Rigid ->
  0 <= p_Mtol P -> (forall k, (k < nodes (pG P))%nat -> p_Mtol P < s_rho So * nth k (gV G) 0 / 2) ->
  s_A So = cell_share (pG P) c ->
  mplist_init P [(So, sv, places (layer (pG P) c rows (INR (ny (pG P) - 1 - rows) * cell_h (pG P))))] = Ok L -> time_march uf fill (mkState P G L) = Ok s' ->
  Prel (fun _ p p' => 0 < depth (pG P) rows (px p) /\
    prho p' = if Rle_dec 1 (depth (pG P) rows (px p)) then s_rho So else s_rho So * ((1 + depth (pG P) rows (px p)) / 2)) L (sL s').
Proof.
  intros uf fill P G c rows So sv L s' HP EG HS Hc Hr Ht Hl HM0 HM HA EL E. pose proof HS as (Hs & Hc0 & _).
  pose proof (p_C94_layer uf fill P G c rows So sv L s' HP EG Hs Hc Hr HA EL E) as HK.
  destruct (grid_init_ok (pG P) (pB P) HP) as (G0 & E0 & OK). assert (G0 = G) by congruence. subst G0.
  pose proof (cell_h_pos _ HP) as Hh.
  assert (HI : all_live L (fun _ p => x_m (pG P) < vx (px p) < x_M (pG P) /\ y_m (pG P) < vy (px p) < y_M (pG P) - head (pG P) rows)).
  { fold (head (pG P) rows) in EL. destruct (init_layer _ _ _ _ _ EL) as (ps & -> & F). apply (new_live P So _ _ _ _ _ F). intros xy p A B. destruct (init_body _ _ _ _ _ _ _ B) as (-> & _).
    destruct (layer_inside (pG P) HP c rows Hc ltac:(lia) xy A) as [X Y]. split; [exact X|exact Y]. }
  assert (HT : y_M (pG P) - head (pG P) rows = y_m (pG P) + INR rows * cell_h (pG P)).
  { destruct (ch (pG P) HP) as [_ E']. rewrite E'. unfold head. rewrite (minus_INR (ny (pG P) - 1) rows) by lia. ring. }
  assert (H1 : 0 <= head (pG P) rows) by (unfold head; apply Rmult_le_pos; [apply pos_INR|lra]).
  assert (HD : all_live L (fun _ p => in_dom (pG P) (px p))). { intros ph p A B. specialize (HI ph p A B). unfold in_dom in *. lra. }
  assert (HR : forall ph, In ph L -> s_law (ph_sol ph) <> Rigid).
  { destruct (init_layer _ _ _ _ _ EL) as (ps & -> & F). intros ph [<-|[]]. exact Hl. }
  destruct (march_mass uf fill (mkState P G L) s' HP OK HD Hs E) as [EV _]. cbn [sG] in EV.
  pose proof (p_C64_density uf fill (mkState P G L) s' HP OK HD HS HR E) as D. cbn [sP sG sL] in D.
  eapply Prel_weaken; [exact D|]. cbv beta. intros ph p p' A B ->.
  assert (HU : 0 < depth (pG P) rows (px p)) by (specialize (HI ph p A B); unfold depth; apply Rdiv_lt_0_compat; lra).
  split; [exact HU|]. rewrite <- (under_surface (pG P) rows (px p) (s_rho So) HP (HD ph p A B) HU).
  apply fsum_ext. intros k Hk. f_equal. rewrite (HK k Hk), EV. specialize (HM k Hk).
  destruct (p_C15_volumes_positive (pG P) (pB P) G HP EG Ht) as [_ V]. specialize (V k Hk).
  destruct (Nat.ltb_spec (row (pG P) k) rows); [|destruct (Nat.eqb_spec (row (pG P) k) rows)]; destruct (Rlt_dec _ _); try lra; field; lra.
Qed.
Lemma pouliquen_light P S0 So ip (p p' : particle R) (G G' : grid R) : s_law So = Pouliquen -> prho p < s_rho So * (8 / 10) -> apply_law P S0 So ip p G = Ok (p', G') -> ppressure p' = 0.
Proof.
  intros HL HR E. unfold apply_law in E. rewrite HL in E. unfold pouliquen in E. pbinds E. destruct (negb _); [discriminate|]. pbinds E.
  apply okp_inj in E. destruct E as [<- _]. cbn [ppressure set].
  match goal with |- (if (?a || ?b)%bool then _ else _) = _ => assert (B : b = true) end.
  { apply Rltb_true. cbn. unfold lit. cbn. unR. lra. }
  rewrite B, orb_true_r. reflexivity.
Qed.
(** Grains with the law pouliquen, evenly packed, that lie less than three fifths of a cell below the
    surface: their next pass through the law takes all of their pressure, whatever their stress and strain. *)
Lemma p_C142_surface_refuted : forall uf fill (P : params R) (G : grid R) c rows So sv L (s' : state R),
  proper (pG P) -> grid_init (pG P) (pB P) = Ok G -> shut P -> (1 <= c)%nat -> (1 <= rows < ny (pG P) - 1)%nat -> 0 < thickness (pG P) -> s_law So = Pouliquen -> 0 < s_rho So ->
  0 <= p_Mtol P -> (forall k, (k < nodes (pG P))%nat -> p_Mtol P < s_rho So * nth k (gV G) 0 / 2) ->
  s_A So = cell_share (pG P) c ->
  mplist_init P [(So, sv, places (layer (pG P) c rows (INR (ny (pG P) - 1 - rows) * cell_h (pG P))))] = Ok L -> time_march uf fill (mkState P G L) = Ok s' ->
  Prel (fun _ p p' => depth (pG P) rows (px p) < 3/5 -> forall P1 S0 ip p1 p2 G1 G2, prho p1 = prho p' -> apply_law P1 S0 So ip p1 G1 = Ok (p2, G2) -> ppressure p2 = 0) L (sL s').
Proof.
  intros uf fill P G c rows So sv L s' HP EG HS Hc Hr Ht Hl Hrho HM0 HM HA EL E.
  assert (D : Prel _ L (sL s')) by (eapply (p_C142_depth uf fill P G c rows So sv L s'); try eassumption; rewrite Hl; discriminate).
  eapply Prel_weaken; [exact D|]. cbv beta. intros ph p p' A B [D0 D1] D2 P1 S0 ip p1 p2 G1 G2 EQ EA.
  apply (pouliquen_light P1 S0 So ip p1 p2 G1 G2 Hl); [|exact EA]. rewrite EQ, D1. destruct (Rle_dec 1 _); [lra|nra].
Qed.
Definition heap_solid (A : R) : solid R := mkSolid 2 A Pouliquen [1/2; 1/2]
  (Some 3) (Some 2) (Some 1) (Some 2) (Some 0) (Some (1/2)) (Some 1) (Some 1) (Some (Ar [1/2; 1/2])) (Some (Ar [1/2; 1/2])) (Some (Ar [1; 1]))
  (Some 1) (Some 1) (Some 1) (Some 1) (Some 2) (Some 1) (Some 1) (Some 1) (Some 1) (Some 0) (Some 0) (Some 1)
  (Some 1) (Some 1) [1] None false None.
Lemma heap_layer : layer (@ex_gridp R _) 1 1 (INR (ny (@ex_gridp R _) - 1 - 1) * cell_h ex_gridp) = [(1/2, 1/2); (3/2, 1/2); (5/2, 1/2)].
Proof.
  assert (CH : cell_h (@ex_gridp R _) = 1). { unfold cell_h. cbn [ex_gridp ny y_m y_M]. replace (INR 3) with 3 by (simpl; lra). unfold n2. unR. field. }
  rewrite CH. unfold layer, spread, linspace, in_dx, in_dy. cbn. unR. repeat (f_equal; try lra).
Qed.
(** One row of three cells, of two, filled with grains, one point a cell, half a cell below the surface. *)
Example x_C142_surface_refuted : exists uf fill (P : params R) (G : grid R) c rows So sv L (s' : state R),
  proper (pG P) /\ grid_init (pG P) (pB P) = Ok G /\ shut P /\ (1 <= c)%nat /\ (1 <= rows < ny (pG P) - 1)%nat /\ 0 < thickness (pG P) /\ s_law So = Pouliquen /\ 0 < s_rho So /\
  0 <= p_Mtol P /\ (forall k, (k < nodes (pG P))%nat -> p_Mtol P < s_rho So * nth k (gV G) 0 / 2) /\ s_A So = cell_share (pG P) c /\
  mplist_init P [(So, sv, places (layer (pG P) c rows (INR (ny (pG P) - 1 - rows) * cell_h (pG P))))] = Ok L /\ time_march uf fill (mkState P G L) = Ok s' /\
  all_live L (fun _ p => depth (pG P) rows (px p) = 1/2) /\ length (flat_map live L) = 3%nat.
Proof.
  set (A := cell_share (@ex_gridp R _) 1). set (l := [(1/2, 1/2); (3/2, 1/2); (5/2, 1/2)] : list (R * R)).
  destruct (grid_init_ok ex_gridp ex_box ex_proper) as (G & EG & OK).
  assert (CW : cell_w (@ex_gridp R _) = 1). { unfold cell_w. cbn [ex_gridp nx x_m x_M]. replace (INR 4) with 4 by (simpl; lra). unR. field. }
  assert (CH : cell_h (@ex_gridp R _) = 1). { unfold cell_h. cbn [ex_gridp ny y_m y_M]. replace (INR 3) with 3 by (simpl; lra). unfold n2. unR. field. }
  destruct (mapM_total (fun xy : R * R * option (list R) => let '(x, y, phi) := xy in
            particle_init (ex_params ex_box) (heap_solid A) (heap_solid A) x y (match phi with Some f => f | None => s_phi (heap_solid A) end)) (places l)) as [ps EP].
  { intros [[x y] f] _. unfold particle_init, init_state, init_flow. cbn. eexists. reflexivity. }
  assert (EL : mplist_init (ex_params ex_box) [(heap_solid A, v0, places l)] = Ok [mkPhase (heap_solid A) (length (places l)) v0 ps]).
  { unfold mplist_init. cbn [bind mapM]. rewrite EP. reflexivity. }
  destruct (init_layer _ _ _ _ _ EL) as (ps' & EQ & F). injection EQ as <-.
  assert (HX : forall xy, In xy l -> 0 <= fst xy < 3 /\ 0 <= snd xy < 2) by (intros xy [<-|[<-|[<-|[]]]]; cbn; lra).
  assert (E : exists s', time_march (fun _ => mkLoads (-1) 0 0 0) (fun _ l => l) (mkState (ex_params ex_box) G [mkPhase (heap_solid A) (length (places l)) v0 ps]) = Ok s').
  { apply p_C58_step_sift. constructor; cbn [sP sG sL].
    - exact ex_proper.
    - exact OK.
    - intros ph [<-|[]]. cbn [ph_n ph_pts]. pose proof (Forall2_len _ _ _ F) as LL. cbn in LL |- *. lia.
    - apply (new_live _ _ _ _ _ _ _ F). intros xy p A1 B1. destruct (init_body _ _ _ _ _ _ _ B1) as (-> & _). split; [|discriminate].
      specialize (HX xy A1). unfold in_dom. cbn [vx vy]. cbn -[Rlt Rle]. unfold n2. unR. lra.
    - exists (heap_solid A). split; [reflexivity|]. apply (new_live _ _ _ _ _ _ _ F). intros xy p A1 B1. right.
      assert (EPH : pphi p = [1/2; 1/2]) by (unfold particle_init in B1; pbinds B1; injection B1 as <-; reflexivity).
      unfold grainy. rewrite EPH. cbn. split; [intros i Hi; cbn; lia|]. split; [discriminate|]. split; [discriminate|]. split; [discriminate|].
      intros i Hi. split; [|split]; eexists; (split; [reflexivity|cbn; lia]).
    - intros ph [<-|[]]. discriminate.
    - discriminate.
    - left. reflexivity.
    - discriminate.
    - split; reflexivity.
    - discriminate. }
  destruct E as [s' E].
  exists (fun _ => mkLoads (-1) 0 0 0), (fun _ l => l), (ex_params ex_box), G, 1%nat, 1%nat, (heap_solid A), v0, [mkPhase (heap_solid A) (length (places l)) v0 ps], s'.
  split; [exact ex_proper|]. split; [exact EG|]. split; [repeat split|]. split; [lia|]. split; [cbn; lia|]. split; [cbn; unR; lra|]. split; [reflexivity|]. split; [cbn; lra|].
  split; [cbn; unfold lit; unR; lra|]. split.
  { intros k Hk. assert (HP : proper ex_gridp) by exact ex_proper. rewrite (p_C15_nodal_volume _ _ G HP EG) by exact Hk.
    assert (W : forall n i, 1/2 <= edge_weight n i) by (intros; unfold edge_weight; destruct (_ || _)%bool; lra).
    change (pG (ex_params ex_box)) with (@ex_gridp R _). rewrite CW, CH. cbn [ex_gridp thickness ex_params pB ex_box cyclic_lr p_Mtol heap_solid s_rho].
    match goal with |- context [edge_weight ?a ?b * edge_weight ?c ?d] => pose proof (W a b); pose proof (W c d); generalize dependent (edge_weight a b); generalize dependent (edge_weight c d) end.
    intros u Hu w Hw. unfold lit. unR. assert (1/4 <= w * u) by nra. lra. }
  split; [reflexivity|]. split; [change (pG (ex_params ex_box)) with (@ex_gridp R _); rewrite heap_layer; exact EL|]. split; [exact E|]. split.
  - apply (new_live _ _ _ _ _ _ _ F). intros xy p A1 B1. destruct (init_body _ _ _ _ _ _ _ B1) as (-> & _). unfold depth. change (pG (ex_params ex_box)) with (@ex_gridp R _). rewrite CH. destruct A1 as [<-|[<-|[<-|[]]]]; cbn; unR; lra.
  - cbn [flat_map]. rewrite app_nil_r. unfold live. cbn [ph_n ph_pts]. rewrite firstn_length. pose proof (Forall2_len _ _ _ F) as LL. cbn [places map length] in LL |- *. unfold l in LL |- *. cbn [map length] in LL |- *. rewrite <- LL. reflexivity.
Qed.
