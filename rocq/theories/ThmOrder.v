(** * The order of the points does not matter *)
From Coq Require Import ZArith List Bool Arith Lia Reals Lra Permutation.
From Verif Require Import State NumR LibR LibList Spec SpecOrder SpecStep Tensor ModelGrid ModelConstit ModelParticle ModelMPList ModelIntegr ModelMain ProofsGrid ProofsInOut ProofsStep ProofsOrder ProofsOrder2 ProofsOrder3 Concrete ThmMapping ThmStep.
Import ListNotations.
Local Open Scope R_scope.
Local Existing Instance Num_R.

Lemma delete_sync (out : particle R -> bool) (outr : particle R -> res bool) :
  (forall p, outr p = Ok (out p)) \/ (exists e, forall p, outr p = Err e) ->
  forall a b a', reordered a b -> delete_where outr a = Ok a' -> exists b', delete_where outr b = Ok b' /\ reordered a' b' /\ alike a b a' b'.
Proof.
  intros [HO|[e HE]] a b a' RO E; pose proof RO as (S & N & V & PM & C).
  - rewrite (delete_where_ok out) in E by (auto || (intros; apply HO)). injection E as <-.
    rewrite (delete_where_ok out) by ((intros; apply HO) || (rewrite <- N, C; apply Permutation_length, PM)). eexists. split; [reflexivity|].
    set (k := fun p => negb (out p)).
    assert (A : alike a b (a <| ph_pts := filter k (ph_pts a) |> <| ph_n := length (filter k (ph_pts a)) |>) (b <| ph_pts := filter k (ph_pts b) |> <| ph_n := length (filter k (ph_pts b)) |>)).
    { split; [reflexivity|]. exists (fun p => if k p then Some p else None), []. cbn. rewrite !omap_filter, !app_nil_r. split; reflexivity. }
    split; [|exact A]. refine (alike_reordered a b _ _ RO A eq_refl V _ eq_refl). cbn. apply Permutation_length. rewrite <- !omap_filter. apply omap_perm, PM.
  - assert (Z : ph_n a = 0%nat).
    { destruct (ph_n a) as [|n] eqn:EN; [reflexivity|exfalso]. unfold delete_where in E. rewrite EN, seq_S, rev_app_distr in E. cbn [rev app foldM] in E. pbinds E. match goal with X : bind _ _ = Ok _ |- _ => pbinds X | _ => idtac end. match goal with X : outr _ = Ok _ |- _ => rewrite HE in X; discriminate end. }
    assert (EA : delete_where outr a = Ok a) by (unfold delete_where; rewrite Z; reflexivity). assert (EB : delete_where outr b = Ok b) by (unfold delete_where; rewrite <- N, Z; reflexivity).
    rewrite EA in E. injection E as <-. exists b. split; [exact EB|]. split; [exact RO|apply alike_refl].
Qed.
(** Adding points. *)
Definition grown (new : list (particle R)) (a : phase R) : phase R := a <| ph_pts := ph_pts a ++ new |> <| ph_n := (ph_n a + length new)%nat |>.
Lemma grown_sync a b new : reordered a b -> reordered (grown new a) (grown new b) /\ alike a b (grown new a) (grown new b).
Proof.
  intros RO. assert (A : alike a b (grown new a) (grown new b)).
  { split; [reflexivity|]. exists Some, new. cbn. rewrite !(omap_some (fun p => p)), !map_id. split; reflexivity. }
  split; [|exact A]. pose proof RO as (S & N & V & PM & C). refine (alike_reordered a b _ _ RO A eq_refl V _ _); cbn; [rewrite N; reflexivity|rewrite app_length, C; reflexivity].
Qed.
Lemma grown_nil a : grown [] a = a.
Proof. destruct a. unfold grown. cbn. rewrite app_nil_r, Nat.add_0_r. reflexivity. Qed.
Lemma grown_app l m a : grown m (grown l a) = grown (l ++ m) a.
Proof. destruct a. unfold grown. cbn. rewrite <- app_assoc, app_length, Nat.add_assoc. reflexivity. Qed.
Lemma add_sync (P : params R) S0 x y a a' : add_point P S0 x y a = Ok a' -> exists new, a' = grown new a /\ forall b, ph_sol b = ph_sol a -> add_point P S0 x y b = Ok (grown new b).
Proof. unfold add_point. intros E. pbinds E. injection E as <-. exists [a0]. split; [reflexivity|]. intros b HB. rewrite HB, E0. reflexivity. Qed.
Lemma adds_sync (P : params R) S0 ys : forall a a',
  foldM (fun ph y => gap <- attr (s_gap (ph_sol ph)) ;; add_point P S0 (x_M (pG P) - fst gap) y ph) a ys = Ok a' ->
  exists new, a' = grown new a /\ forall b, ph_sol b = ph_sol a -> foldM (fun ph y => gap <- attr (s_gap (ph_sol ph)) ;; add_point P S0 (x_M (pG P) - fst gap) y ph) b ys = Ok (grown new b).
Proof.
  induction ys as [|y ys IH]; intros a a' E; cbn [foldM] in *.
  - injection E as <-. exists []. rewrite grown_nil. split; [reflexivity|]. intros b _. rewrite grown_nil. reflexivity.
  - apply bind_ok in E. destruct E as (a1 & EA & E). apply bind_ok in EA. destruct EA as (g & E1 & E0). destruct (add_sync _ _ _ _ _ _ E0) as (n1 & -> & H1). destruct (IH _ _ E) as (n2 & -> & H2). exists (n1 ++ n2).
    rewrite grown_app. split; [reflexivity|]. intros b HB. rewrite HB, E1. cbn [bind]. rewrite (H1 _ HB). cbn [bind]. rewrite H2 by exact HB. rewrite grown_app. reflexivity.
Qed.
Lemma inout_sync (P : params R) La Lb La' : Forall2 reordered La Lb -> inout P La = Ok La' -> exists Lb', inout P Lb = Ok Lb' /\ follows La Lb La' Lb'.
Proof.
  intros RR E. unfold inout in *.
  assert (ST : forall (c : bool) (f : list (phase R) -> res (list (phase R))) Lx Ly Lx', Forall2 reordered Lx Ly ->
     (forall A B A', Forall2 reordered A B -> f A = Ok A' -> exists B', f B = Ok B' /\ follows A B A' B') ->
     (if c then f Lx else Ok Lx) = Ok Lx' -> exists Ly', (if c then f Ly else Ok Ly) = Ok Ly' /\ follows Lx Ly Lx' Ly').
  { intros [] f Lx Ly Lx' R H X; [eapply H; eassumption|]. injection X as <-. exists Ly. split; [reflexivity|apply follows_refl, R]. }
  apply bind_ok in E. destruct E as (L1 & E1 & E). apply bind_ok in E. destruct E as (L2 & E2 & E). apply bind_ok in E. destruct E as (L3 & E3 & E). apply bind_ok in E. destruct E as (L4 & E4 & E).
  eapply ST in E1; [|exact RR|]. destruct E1 as (M1 & F1 & G1). rewrite F1. cbn [bind].
  eapply ST in E2; [|exact (proj1 G1)|]. destruct E2 as (M2 & F2 & G2). rewrite F2. cbn [bind].
  eapply ST in E3; [|exact (proj1 G2)|]. destruct E3 as (M3 & F3 & G3). rewrite F3. cbn [bind].
  eapply ST in E4; [|exact (proj1 G3)|]. destruct E4 as (M4 & F4 & G4). rewrite F4. cbn [bind].
  eapply ST in E; [|exact (proj1 G4)|]. destruct E as (M5 & F5 & G5). rewrite F5. exists M5. split; [reflexivity|].
  - eapply follows_trans; [|exact G5]. eapply follows_trans; [|exact G4]. eapply follows_trans; [|exact G3]. eapply follows_trans; [|exact G2]. exact G1.
  - intros A B A' R X. unfold cyclic_lr_f in *. exact (points__sync _ (fun _ _ _ p => Ok (wrap (pG P) p)) (fun _ _ _ => eq_refl) _ _ R _ X).
  - intros A B A' R X. unfold inlet_top_f in *. apply bind_ok in X. destruct X as (S0 & ES & X). rewrite (sol0_sync _ _ _ R ES). cbn [bind].
    revert X. apply phases_sync; [|exact R]. clear. intros a b a' RO E. pose proof RO as (S & _). rewrite <- S. apply bind_ok in E. destruct E as (due & ED & E). rewrite ED. cbn [bind].
    destruct due; [|injection E as <-; exists b; split; [reflexivity|]; split; [exact RO|apply alike_refl]].
    apply bind_ok in E. destruct E as (g & EG & E). rewrite EG. cbn [bind]. destruct (add_sync _ _ _ _ _ _ E) as (new & -> & HN). exists (grown new b). split; [apply HN; symmetry; exact S|]. apply grown_sync, RO.
  - intros A B A' R X. unfold inlet_right_f in *. apply bind_ok in X. destruct X as (S0 & ES & X). rewrite (sol0_sync _ _ _ R ES). cbn [bind].
    revert X. apply phases_sync; [|exact R]. clear. intros a b a' RO E. pose proof RO as (S & _). rewrite <- S. apply bind_ok in E. destruct E as (due & ED & E). rewrite ED. cbn [bind].
    destruct due; [|injection E as <-; exists b; split; [reflexivity|]; split; [exact RO|apply alike_refl]].
    destruct (adds_sync _ _ _ _ _ E) as (new & -> & HN). exists (grown new b). split; [apply HN; symmetry; exact S|]. apply grown_sync, RO.
  - intros A B A' R X. unfold outlet_bottom_f in *. revert X. apply phases_sync; [|exact R]. apply (delete_sync (fun p => nltb (vy (px p)) (y_m (pG P)))). left. reflexivity.
  - intros A B A' R X. unfold outlet_left_f in *. revert X. apply phases_sync; [|exact R]. destruct (pdx (pG P)) as [dx|].
    + apply (delete_sync (fun p => nltb (vx (px p)) (x_m (pG P) + dx))). left. reflexivity.
    + apply (delete_sync (fun _ => true)). right. eexists. reflexivity.
Qed.
Lemma step_sync uf fill (s t s' : state R) : Forall2 reordered (sL s) (sL t) -> sP t = sP s -> sG t = sG s -> time_march uf fill s = Ok s' ->
  exists t', time_march uf fill t = Ok t' /\ sP t' = sP s' /\ sG t' = sG s' /\ follows (sL s) (sL t) (sL s') (sL t').
Proof.
  intros RR EP EG E. unfold time_march in *. rewrite EP, EG. apply bind_ok in E. destruct E as (S0 & ES & E). rewrite (sol0_sync _ _ _ RR ES). cbn [bind]. cbv zeta in *.
  apply bind_ok in E. destruct E as (L1 & E1 & E). destruct (points__sync _ (fun k _ _ p => Ok (increment_gravity (sP s <| p_loads := uf (sP s) |>) k p)) (fun _ _ _ => eq_refl) _ _ RR _ E1) as (M1 & F1 & G1).
  unfold update_forces. rewrite F1. cbn [bind].
  apply bind_ok in E. destruct E as (L2 & E2 & E). destruct (points__sync _ (fun _ _ _ p => get_reference_node _ _ p) (fun _ _ _ => eq_refl) _ _ (proj1 G1) _ E2) as (M2 & F2 & G2). unfold ref_nodes. rewrite F2. cbn [bind].
  apply bind_ok in E. destruct E as (L3 & E3 & E). destruct (points__sync _ (fun _ _ _ p => get_basis_functions _ p) (fun _ _ _ => eq_refl) _ _ (proj1 G2) _ E3) as (M3 & F3 & G3). unfold basis_all. rewrite F3. cbn [bind].
  pose proof (proj1 G3) as R3. apply bind_ok in E. destruct E as ([] & EC & E).
  assert (EC' : (if p_check (sP s <| p_loads := uf (sP s) |>) then check_positions (sP s <| p_loads := uf (sP s) |>) (wipe (sP s) (sG s)) M3 else Ok tt) = Ok tt).
  { destruct (p_check _); [|reflexivity]. eapply check_sync; eassumption. }
  rewrite EC'. cbn [bind]. apply bind_ok in E. destruct E as (H1 & E4 & E). rewrite (p2g_sync _ _ _ _ _ R3 E4). cbn [bind].
  apply bind_ok in E. destruct E as (H2 & E5 & E). rewrite E5. cbn [bind]. apply bind_ok in E. destruct E as ([L4 H3] & E6 & E). destruct (stress_sync _ _ _ _ _ _ R3 E6) as (M4 & F4 & G4). rewrite F4. cbn [bind].
  apply bind_ok in E. destruct E as (H4 & E7 & E). rewrite (forces_sync _ _ _ _ _ (proj1 G4) E7). cbn [bind].
  apply bind_ok in E. destruct E as (H5 & E8 & E). rewrite E8. cbn [bind]. apply bind_ok in E. destruct E as (H6 & E9 & E). rewrite E9. cbn [bind].
  apply bind_ok in E. destruct E as ([L5 H7] & E10 & E).
  assert (Z : exists M5, (if p_seg (sP s <| p_loads := uf (sP s) |>) then segregate fill (sP s <| p_loads := uf (sP s) |>) M4 (calculate_gammadot fill (sP s <| p_loads := uf (sP s) |>) H6) else Ok (M4, calculate_gammadot fill (sP s <| p_loads := uf (sP s) |>) H6)) = Ok (M5, H7) /\ follows L4 M4 L5 M5).
  { destruct (p_seg _); [eapply segregate_sync; [exact (proj1 G4)|exact E10]|]. injection E10 as <- <-. exists M4. split; [reflexivity|]. apply follows_refl, (proj1 G4). }
  destruct Z as (M5 & F5 & G5). rewrite F5. cbn [bind].
  apply bind_ok in E. destruct E as (L6 & E11 & E). destruct (move_sync _ _ _ _ _ (proj1 G5) E11) as (M6 & F6 & G6). rewrite F6. cbn [bind].
  apply bind_ok in E. destruct E as (L7 & E12 & E). destruct (inout_sync _ _ _ _ (proj1 G6) E12) as (M7 & F7 & G7). rewrite F7. cbn [bind]. injection E as <-.
  eexists. split; [reflexivity|]. cbn [sP sG sL]. split; [reflexivity|]. split; [reflexivity|].
  eapply follows_trans; [|exact G7]. eapply follows_trans; [|exact G6]. eapply follows_trans; [|exact G5]. eapply follows_trans; [|exact G4].
  eapply follows_trans; [|exact G3]. eapply follows_trans; [|exact G2]. exact G1.
Qed.

(** ** C53 *)
Lemma alikes_outcome (La Lb La' Lb' : list (phase R)) : alikes La Lb La' Lb' -> exists F new, outcome F new La La' /\ outcome F new Lb Lb'.
Proof.
  induction 1 as [|a b c d La Lb Lc Ld [_ (F0 & new0 & E1 & E2)] AA (F & new & [N1 H1] & [N2 H2])].
  - exists (fun _ => Some), (fun _ => []). split; (split; [reflexivity|]); intros [|k]; reflexivity.
  - exists (fun k => match k with O => F0 | Datatypes.S k => F k end), (fun k => match k with O => new0 | Datatypes.S k => new k end).
    split; (split; [cbn; congruence|]); intros [|k]; [exact E1|apply H1|exact E2|apply H2].
Qed.
(** One step. *)
Lemma p_C53_step : forall uf fill (s t s' : state R), shuffled s t -> time_march uf fill s = Ok s' ->
  exists t', time_march uf fill t = Ok t' /\ shuffled s' t' /\
    exists F new, outcome F new (sL s) (sL s') /\ outcome F new (sL t) (sL t').
Proof.
  intros uf fill s t s' (EP & EG & RR) E. destruct (step_sync uf fill s t s' RR EP EG E) as (t' & Et & EP' & EG' & R' & A').
  exists t'. split; [exact Et|]. split; [split; [exact EP'|split; assumption]|]. apply alikes_outcome, A'.
Qed.
Lemma crit_sync La Lb : Forall2 reordered La Lb ->
  flat_map (fun ph : phase R => match s_crit (ph_sol ph) with Some c => [c] | None => [] end) La = flat_map (fun ph => match s_crit (ph_sol ph) with Some c => [c] | None => [] end) Lb.
Proof. induction 1 as [|a b La Lb (S & _) F IH]; [reflexivity|]. cbn. rewrite S, IH. reflexivity. Qed.
Lemma pass_sync uf fill (s t s' : state R) tr tr' : shuffled s t -> pass uf fill s tr = Ok (s', tr') ->
  exists t', pass uf fill t tr = Ok (t', tr') /\ shuffled s' t'.
Proof.
  intros SH E. unfold pass in *. apply bind_ok in E. destruct E as (s1 & E1 & E). destruct (p_C53_step _ _ _ _ _ SH E1) as (t1 & F1 & (EP & EG & RR) & _).
  rewrite F1. cbn [bind]. cbv zeta in *. rewrite EP, EG. destruct (neqb _ _); [discriminate E|].
  apply bind_ok in E. destruct E as (due & ED & E). rewrite ED. cbn [bind].
  apply bind_ok in E. destruct E as (dt & EDT & E). 
  match type of EDT with (if ?c then dynamic_dt ?P ?G ?L else _) = _ => assert (EDT' : (if c then dynamic_dt P G (sL t1) else Ok (p_dt P)) = Ok dt) end.
  { rewrite <- EDT. match goal with |- context [if ?c then _ else _] => destruct c; [|reflexivity] end. unfold dynamic_dt. rewrite (crit_sync _ _ RR). reflexivity. }
  rewrite EDT'. cbn [bind]. injection E as <- <-. eexists. split; [reflexivity|]. split; [reflexivity|]. split; [exact EG|exact RR].
Qed.
Lemma shuffled_sym (s t : state R) : shuffled s t -> shuffled t s.
Proof.
  intros (EP & EG & RR). split; [auto|]. split; [auto|]. clear EP EG. induction RR as [|a b La Lb (S & N & V & PM & C) F IH]; constructor; [|exact IH].
  split; [auto|]. split; [auto|]. split; [auto|]. split; [apply Permutation_sym, PM|]. rewrite <- N, C. apply Permutation_length, PM.
Qed.
Lemma march_sync uf fill n : forall (s t : state R) tr, shuffled s t ->
  match march uf fill n s tr with
  | Some (Ok (s', tr')) => exists t', march uf fill n t tr = Some (Ok (t', tr')) /\ shuffled s' t'
  | Some (Err _) => exists e, march uf fill n t tr = Some (Err e)
  | None => march uf fill n t tr = None
  end.
Proof.
  induction n as [|n IH]; intros s t tr SH; pose proof SH as (EP & EG & RR); cbn [march]; rewrite EP; (destruct (nleb _ _); [|exists t; split; [reflexivity|exact SH]]).
  - reflexivity.
  - destruct (pass uf fill s tr) as [[s1 tr1]|e] eqn:E.
    + destruct (pass_sync _ _ _ _ _ _ _ SH E) as (t1 & F & SH'). rewrite F. apply IH, SH'.
    + destruct (pass uf fill t tr) as [[t1 tr1]|e'] eqn:F; [|exists e'; reflexivity].
      destruct (pass_sync _ _ _ _ _ _ _ (shuffled_sym _ _ SH) F) as (s1 & X & _). congruence.
Qed.
(** The whole run: the same saves and hooks, or an abort, or no end, in both
    orders. *)
Lemma p_C53_run : forall uf fill n (s t : state R), shuffled s t ->
  match main_loop uf fill n s with
  | Some (Ok (s', tr)) => exists t', main_loop uf fill n t = Some (Ok (t', tr)) /\ shuffled s' t'
  | Some (Err _) => exists e, main_loop uf fill n t = Some (Err e)
  | None => main_loop uf fill n t = None
  end.
Proof.
  intros uf fill n s t SH. unfold main_loop. pose proof (march_sync uf fill n s t [EInitial] SH) as M.
  destruct (march uf fill n s [EInitial]) as [[[s' tr]|e]|].
  - destruct M as (t' & -> & SH'). exists t'. split; [reflexivity|exact SH'].
  - destruct M as (e' & ->). exists e'. reflexivity.
  - rewrite M. reflexivity.
Qed.
(** Two different orders of two different points. *)
Example x_C53_step : forall uf fill, exists s t s' : state R, shuffled s t /\ sL s <> sL t /\ time_march uf fill s = Ok s'.
Proof.
  intros uf fill. destruct (grid_init_ok ex_gridp ex_box ex_proper) as (G & EG & OK).
  pose proof (ex_ready ex_box G EG OK eq_refl eq_refl eq_refl Elastic (or_introl eq_refl)) as HR.
  destruct (p_C58_step_total uf fill _ HR) as [s' E].
  exists (start (ex_params ex_box) G Elastic), (mkState (ex_params ex_box) G [ex_phase Elastic <| ph_pts := [ex_p2; ex_p1] |>]), s'.
  split; [|split; [|exact E]].
  - split; [reflexivity|]. split; [reflexivity|]. cbn [sL start ex_L]. constructor; [|constructor].
    split; [reflexivity|]. split; [reflexivity|]. split; [reflexivity|]. split; [apply perm_swap|reflexivity].
  - cbn [sL start ex_L]. intros X. assert (Y : map (fun p => vx (px p)) (concat (map ph_pts (ex_L Elastic))) = map (fun p => vx (px p)) (concat (map ph_pts [ex_phase Elastic <| ph_pts := [ex_p2; ex_p1] |>]))) by (f_equal; f_equal; f_equal; exact X).
    cbn in Y. injection Y as Y _. lra.
Qed.
(** The energies reported for a state. *)
Lemma p_C53_energy : forall (P : params R) (La Lb : list (phase R)) r, Forall2 reordered La Lb -> measure_energy P La = Ok r -> measure_energy P Lb = Ok r.
Proof.
  intros P La Lb r RR E. unfold measure_energy in *. apply bind_ok in E. destruct E as ([[K U] W] & E0 & E).
  rewrite (points_r_sync (fun (e : R * R * R) (s : R * R * R) => Ok (let '(k, g, w) := e in let '(K, G, E) := s in (K + k, G + g, E + w))) (fun _ ph p kgs =>
        let '(K, G, E) := kgs in let '(k, g, s) := energy P (ph_sv ph) p in Ok (nadd K k, nadd G g, nadd E s)) (fun _ _ sv p => Ok (energy P sv p)) (fun _ => True)) with (La := La) (s' := (K, U, W)); auto.
  - intros [[k g] w] [[k' g'] w'] [[x y] z] s1 s2 E1 E2. injection E1 as <-. injection E2 as <-. eexists. split; [reflexivity|]. cbn. f_equal. f_equal; [f_equal|]; ring.
  - intros k ph p [[x y] z] _. cbn [bind]. destruct (energy P (ph_sv ph) p) as [[k' g'] w']. reflexivity.
Qed.
