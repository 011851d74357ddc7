(** * Each stage of a step on phases whose points are reordered. *)
From Coq Require Import ZArith List Bool Arith Lia Reals Lra Permutation.
From Verif Require Import State NumR LibR LibList Spec SpecOrder Tensor ModelGrid ModelConstit ModelParticle ModelMPList ModelIntegr ModelMain ProofsInOut ProofsOrder ProofsOrder2.
Import ListNotations.
Local Open Scope R_scope.
Local Existing Instance Num_R.

Notation acta := (runs runa).
Definition acta_comm := runs_comm runa runa_comm.

Lemma four_runs (P : params R) n (f : grid R -> nat -> Z -> res (grid R)) (act : nat -> Z -> list prim) :
  (forall G r k, f G r k = acta (act r k) G) -> forall G, four P n f G = acta (flat_map (fun r => act r (nearby n r (nx (pG P)))) [0; 1; 2; 3]%nat) G.
Proof.
  intros Hf. unfold four. generalize [0; 1; 2; 3]%nat. intros l. induction l as [|r l IH]; intros G; cbn [foldM flat_map]; [reflexivity|].
  rewrite runs_app, Hf. destruct (acta _ G); cbn; [apply IH|reflexivity].
Qed.
Definition p2g_acts (P : params R) (sv : V3 R) (p : particle R) : list prim :=
  flat_map (fun r => let n := nearby (pnstar p) r (nx (pG P)) in
    [AR RM n (Nr p r * pm p); AV VQ n (vscale (Nr p r * pm p) (vel sv p))] ++
    (if p_seg P then [AP n (map (fun f => Nr p r * pm p * f) (pphi p)); AR RK n (Nr p r * pm p * ppk p)] else [])) [0; 1; 2; 3]%nat.
Lemma p2g_runs (P : params R) sv p G : p2g P sv p G = acta (p2g_acts P sv p) G.
Proof.
  unfold p2g, p2g_acts. cbv zeta. rewrite (four_runs P (pnstar p) _ (fun r n => [AR RM n (Nr p r * pm p); AV VQ n (vscale (Nr p r * pm p) (vel sv p))] ++
    (if p_seg P then [AP n (map (fun f => Nr p r * pm p * f) (pphi p)); AR RK n (Nr p r * pm p * ppk p)] else []))); [reflexivity|].
  intros H r n. rewrite runs_app. unfold runs. cbn [foldM runa]. unfold radd, vadds. cbn [rget vget rset vset].
  change (@nadd R Num_R) with Rplus. change (@nmul R Num_R) with Rmult.
  destruct (py_upd (gm H) n _) as [m|]; cbn [bind]; [|reflexivity].
  change (gq (H <| gm := m |>)) with (gq H). destruct (py_upd (gq H) n _) as [q|]; cbn [bind]; [|reflexivity].
  destruct (p_seg P); [|reflexivity]. cbn [foldM runa]. unfold rowop, radd. cbn [rget rset].
  change (@nadd R Num_R) with Rplus. change (@nmul R Num_R) with Rmult.
  destruct (py_get _ n) as [row|]; cbn [bind]; [|reflexivity]. destruct (row_add _ _) as [row'|]; cbn [bind]; [|reflexivity].
  destruct (py_upd _ n (fun _ => row')) as [ph|]; cbn [bind]; [|reflexivity]. cbn [g_pkm set].
  match goal with |- _ = bind (bind ?a _) _ => destruct a as [pk|] end; reflexivity.
Qed.
Lemma nodal_forces_runs (P : params R) p G : nodal_forces P p G = acta (flat_map (fun r => let n := nearby (pnstar p) r (nx (pG P)) in
  [AV VI n (vscale (pV p) (mv (pstress p) (Gr p r))); AV VE n (vscale (Nr p r * pm p) (pb p))]) [0; 1; 2; 3]%nat) G.
Proof.
  unfold nodal_forces. cbv zeta. rewrite (four_runs P (pnstar p) _ (fun r n => [AV VI n (vscale (pV p) (mv (pstress p) (Gr p r))); AV VE n (vscale (Nr p r * pm p) (pb p))])); [reflexivity|].
  intros H r n. unfold runs. cbn [foldM runa]. unfold vadds. cbn [vget vset]. destruct (py_upd (gfi H) n _) as [m|]; cbn [bind]; [|reflexivity].
  change (gfe (H <| gfi := m |>)) with (gfe H). change (@nmul R Num_R) with Rmult. destruct (py_upd (gfe H) n _) as [q|]; reflexivity.
Qed.
Definition vis_acts (P : params R) (p : particle R) (fs : list (sfield * (R -> R))) (l : list nat) : list prim :=
  flat_map (fun r => map (fun fw => AR (RS (fst fw)) (nearby (pnstar p) r (nx (pG P))) (snd fw (Nr p r))) fs) l.
Lemma visualise_runs (P : params R) p fs G : visualise P p fs G = acta (vis_acts P p fs [0; 1; 2; 3]%nat) G.
Proof.
  unfold visualise, vis_acts. rewrite (four_runs P (pnstar p) _ (fun r n => map (fun fw => AR (RS (fst fw)) n (snd fw (Nr p r))) fs)); [reflexivity|].
  intros H r n. revert H. induction fs as [|fw fs IH]; intros H; [reflexivity|]. unfold runs. cbn [foldM map runa].
  change (sadd (fst fw) n (snd fw (Nr p r)) H) with (l <- radd n (snd fw (Nr p r)) (rget (RS (fst fw)) H) ;; Ok (rset (RS (fst fw)) l H)).
  destruct (radd n _ _); cbn [bind]; [apply IH|reflexivity].
Qed.
(** A law changes the point and adds to scalar fields. *)
Definition only_scalar (a : prim) : Prop := match a with AR (RS _) _ _ => True | _ => False end.
Definition splits (f : grid R -> res (particle R * grid R)) : Type :=
  { r : res (particle R * list prim) | (forall G, f G = (p <- r ;; G <- acta (snd p) G ;; Ok (fst p, G))) /\ forall p, r = Ok p -> Forall only_scalar (snd p) }.
Lemma splits_bind {A} (m : res A) (k : A -> grid R -> res (particle R * grid R)) : (forall a, splits (k a)) -> splits (fun G => a <- m ;; k a G).
Proof.
  intros H. destruct m as [a|e].
  - destruct (H a) as [r Hr]. exists r. exact Hr.
  - exists (Err e). split; [reflexivity|discriminate].
Qed.
Lemma splits_vis P p fs : splits (fun G => G <- visualise P p fs G ;; Ok (p, G)).
Proof.
  exists (Ok (p, vis_acts P p fs [0; 1; 2; 3]%nat)). split; [intros G; rewrite visualise_runs; reflexivity|]. intros q E.
  assert (Q : q = (p, vis_acts P p fs [0; 1; 2; 3]%nat)) by congruence. rewrite Q. cbn [snd]. unfold vis_acts.
  generalize [0; 1; 2; 3]%nat. intros l. induction l as [|r l IH]; cbn [flat_map]; [constructor|]. apply Forall_app. split; [|exact IH].
  clear. induction fs; cbn [map]; constructor; [exact I|assumption].
Qed.
Lemma law_splits P S0 S k p : splits (apply_law P S0 S k p).
Proof.
  unfold apply_law. destruct (s_law S).
  - exists (Ok (p, [])). split; [reflexivity|]. intros q E. injection E as <-. constructor.
  - unfold elastic. cbv zeta. repeat (apply splits_bind; intros). apply splits_vis.
  - unfold elastic_time. cbv zeta. repeat (apply splits_bind; intros). apply splits_vis.
  - unfold von_mises. cbv zeta. repeat (apply splits_bind; intros). apply splits_vis.
  - unfold dp. cbv zeta. repeat (apply splits_bind; intros). destruct (RK4 _ _ _) as [ds [pp qq]]. apply splits_vis.
  - unfold dp_rate. cbv zeta. repeat (apply splits_bind; intros). apply splits_vis.
  - unfold viscous. cbv zeta. repeat (apply splits_bind; intros). apply splits_vis.
  - unfold bingham. cbv zeta. repeat (apply splits_bind; intros). apply splits_vis.
  - unfold ken_kamrin. cbv zeta. repeat (apply splits_bind; intros). apply splits_vis.
  - unfold pouliquen. cbv zeta. repeat (apply splits_bind; intros).
    destruct (negb (mallfin _)); [exists (Err SystemExit); split; [reflexivity|discriminate]|]. apply splits_vis.
  - unfold linear_mu. cbv zeta. repeat (apply splits_bind; intros). apply splits_vis.
  - unfold ken_simple. cbv zeta. repeat (apply splits_bind; intros). destruct (negb (mallfin _)); [exists (Err SystemExit); split; [reflexivity|discriminate]|]. apply splits_vis.
  - exists (Err NameError). split; [reflexivity|discriminate].
Qed.

(** ** Stages *)
Definition follows (La Lb La' Lb' : list (phase R)) : Prop := Forall2 reordered La' Lb' /\ alikes La Lb La' Lb'.
Lemma sol0_sync (La Lb : list (phase R)) S : Forall2 reordered La Lb -> sol0 La = Ok S -> sol0 Lb = Ok S.
Proof. intros F E. destruct F as [|a b La Lb [R _] F]; [discriminate E|]. cbn in *. rewrite <- R. exact E. Qed.
Lemma p2g_sync (P : params R) La Lb G G' : Forall2 reordered La Lb -> p2g_all P La G = Ok G' -> p2g_all P Lb G = Ok G'.
Proof.
  intros RR E. unfold p2g_all in *. apply bind_ok in E. destruct E as ([La' H] & E0 & E).
  assert (Z : exists Lb', forM (fun (_ : nat) ph G => '(_, G) <- each (ph_n ph) (fun p G => G <- p2g P (ph_sv ph) p G ;; Ok (p, G)) (ph_pts ph) G ;;
        Ok (ph, if p_seg P then G <| g_phi := node_fractions G |> else G)) 0%nat Lb G = Ok (Lb', H)).
  2:{ destruct Z as [Lb' Z]. rewrite Z. cbn [bind]. exact E. }
  clear E. assert (X := forM_sync (fun (_ : nat) ph G => '(_, G) <- each (ph_n ph) (fun p G => G <- p2g P (ph_sv ph) p G ;; Ok (p, G)) (ph_pts ph) G ;;
        Ok (ph, if p_seg P then G <| g_phi := node_fractions G |> else G)) (fun _ => True)).
  edestruct X as (_ & Lb' & EL & _); [|exact RR|exact I|exact E0|exists Lb'; exact EL].
  clear. intros k a b s a' s' R _ E. pbinds E. injection E as <- <-. split; [exact I|]. exists b. destruct R as (S & N & V & PM & C). rewrite C in E0.
  destruct (each_perm acta acta_comm (fun p G => G <- p2g P (ph_sv a) p G ;; Ok (p, G)) (fun p => Ok (p, p2g_acts P (ph_sv a) p)) (fun _ => True)) with (l := ph_pts a) (m := ph_pts b) (s := s) (l' := b0) (s' := b1) as (_ & _ & Eb); auto.
  { intros p H _. cbn [bind fst snd]. rewrite p2g_runs. reflexivity. }
  split; [|split; [repeat (split; try assumption)|apply alike_refl]].
  rewrite <- N, C, (Permutation_length PM), <- V, Eb. reflexivity.
Qed.
Definition is_sc (a : prim) : bool := match a with AR (RS _) _ _ => true | _ => false end.
Lemma filter_sc l : Forall only_scalar l -> filter is_sc l = l.
Proof. induction 1 as [|a l H F IH]; [reflexivity|]. cbn. destruct a as [[| |f] n w|f n w|n w]; try contradiction. cbn. rewrite IH. reflexivity. Qed.
Lemma acta_sc_frame l G G' : acta (filter is_sc l) G = Ok G' -> gm G' = gm G /\ gq G' = gq G.
Proof.
  revert G. induction l as [|a l IH]; intros G E; cbn in E; [injection E as <-; auto|]. destruct (is_sc a) eqn:S; [|auto].
  unfold runs in E. cbn [foldM] in E. pbinds E. destruct a as [[| |f] n w|f n w|n w]; try discriminate S. cbn in E0. pbinds E0. injection E0 as <-.
  destruct (IH _ E) as [-> ->]. destruct f; split; reflexivity.
Qed.
Lemma strain_same (P : params R) G H (p : particle R) : gm G = gm H -> gq G = gq H -> update_strain P G p = update_strain P H p.
Proof. intros E1 E2. unfold update_strain, nodal_velocity. rewrite E1, E2. reflexivity. Qed.
Lemma stress_sync (P : params R) La Lb G La' G' : Forall2 reordered La Lb -> stress_strain P La G = Ok (La', G') ->
  exists Lb', stress_strain P Lb G = Ok (Lb', G') /\ follows La Lb La' Lb'.
Proof.
  intros RR E. unfold stress_strain in *. apply bind_ok in E. destruct E as (S0 & ES & E). rewrite (sol0_sync _ _ _ RR ES). cbn [bind].
  apply bind_ok in E. destruct E as ([Lx H] & EP & E).
  pose (lawr := fun k S p => proj1_sig (law_splits P S0 S k p)).
  destruct (points_sync (fun b => acta (filter is_sc b)) (fun k ph p G => p <- update_strain P G p ;; update_stress P S0 (ph_sol ph) k p G)
     (fun k S (_ : V3 R) p => p <- update_strain P G p ;; r <- lawr k S p ;;
        Ok (let p := fst r in p <| pstress := madd (pstress p) (msub (pdstress p) (mmuls (madd (mm (pL p) (pstress p)) (mm (pstress p) (pL p))) (p_dt P))) |>, snd r))
     (fun H => gm H = gm G /\ gq H = gq G)) with (La := La) (Lb := Lb) (s := G) (La' := Lx) (s' := H) as (_ & Lb' & EL & R & A); auto.
  - intros b c. apply acta_comm.
  - intros k ph p K [K1 K2]. cbv beta. rewrite (strain_same P K G) by assumption. destruct (update_strain P G p) as [q|]; cbn [bind]; [|reflexivity].
    unfold update_stress, lawr. destruct (law_splits P S0 (ph_sol ph) k q) as [r [Hr Sc]]. cbn [proj1_sig]. rewrite Hr. destruct r as [[q' l]|]; cbn [bind fst snd]; [|reflexivity].
    rewrite (filter_sc l) by (exact (Sc _ eq_refl)). destruct (acta l K); reflexivity.
  - intros b K K' [K1 K2] EK. destruct (acta_sc_frame _ _ _ EK). split; congruence.
  - rewrite EL. cbn [bind]. destruct (cyclic_lr (pB P)).
    + pbinds E. injection E as <- <-. rewrite E0. cbn. exists Lb'. split; [reflexivity|]. split; assumption.
    + injection E as <- <-. exists Lb'. split; [reflexivity|]. split; assumption.
Qed.
Lemma forces_sync (P : params R) La Lb G G' : Forall2 reordered La Lb -> forces_all P La G = Ok G' -> forces_all P Lb G = Ok G'.
Proof.
  intros RR E. unfold forces_all in *. pbinds E. rewrite (points_r_sync acta (fun _ _ p G => nodal_forces P p G)
    (fun _ _ _ p => Ok (flat_map (fun r => let n := nearby (pnstar p) r (nx (pG P)) in
       [AV VI n (vscale (pV p) (mv (pstress p) (Gr p r))); AV VE n (vscale (Nr p r * pm p) (pb p))]) [0; 1; 2; 3]%nat)) (fun _ => True) acta_comm) with (La := La) (s' := a); auto.
  intros k ph p K _. cbn [bind]. apply nodal_forces_runs.
Qed.
Lemma check_sync (P : params R) G La Lb : Forall2 reordered La Lb -> check_positions P G La = Ok tt -> check_positions P G Lb = Ok tt.
Proof.
  intros RR E. unfold check_positions in *.
  refine (points_r_sync (fun (_ : unit) (_ : unit) => Ok tt) _ (fun _ _ _ p => x <- recover_position P G p ;; let d := vmap nabs (vsub x (px p)) in
      if nltb (lit 1 (10 ^ 10)) (pymax (pymax (vx d) (vy d)) (vz d)) then Err TypeError else Ok tt) (fun _ => True) _ _ _ La Lb RR tt tt I E).
  - intros _ _ s s1 s2 _ X. exists tt. split; [reflexivity|exact X].
  - intros k ph p [] _. cbv beta zeta. destruct (recover_position P G p); cbn [bind]; [|reflexivity]. destruct (nltb _ _); reflexivity.
  - auto.
Qed.
Lemma follows_refl La Lb : Forall2 reordered La Lb -> follows La Lb La Lb.
Proof. intros F. split; [exact F|]. apply alikes_refl. induction F; cbn; congruence. Qed.
Lemma follows_trans La Lb Lc Ld Le Lf : follows La Lb Lc Ld -> follows Lc Ld Le Lf -> follows La Lb Le Lf.
Proof. intros [A B] [C D]. split; [exact C|]. eapply alikes_trans; eassumption. Qed.
Lemma grainsize_sync (P : params R) G La Lb La' : Forall2 reordered La Lb -> move_grainsize P G La = Ok La' ->
  exists Lb', move_grainsize P G Lb = Ok Lb' /\ follows La Lb La' Lb'.
Proof.
  intros RR E. unfold move_grainsize in *. pbinds E.
  destruct (points__sync _ (fun _ _ _ p => map_phi_to_mp P G p) (fun _ _ _ => eq_refl) _ _ RR _ E0) as (Lc & EC & R1 & A1). rewrite EC. cbn [bind]. destruct (p_norm P).
  - destruct (points__sync _ (fun _ _ _ p => Ok (p <| pphi := normalise (pphi p) |>)) (fun _ _ _ => eq_refl) _ _ R1 _ E) as (Ld & ED & R2 & A2).
    exists Ld. split; [exact ED|]. exact (follows_trans _ _ _ _ _ _ (conj R1 A1) (conj R2 A2)).
  - injection E as <-. exists Lc. split; [reflexivity|]. split; assumption.
Qed.
Lemma segregate_sync fill (P : params R) La Lb G La' G' : Forall2 reordered La Lb -> segregate fill P La G = Ok (La', G') ->
  exists Lb', segregate fill P Lb G = Ok (Lb', G') /\ follows La Lb La' Lb'.
Proof.
  intros RR E. unfold segregate in *. apply bind_ok in E. destruct E as (S0 & ES & E). rewrite (sol0_sync _ _ _ RR ES). cbn [bind]. cbv zeta in *.
  apply bind_ok in E. destruct E as (rs & ER & E). rewrite ER. cbn [bind]. apply bind_ok in E. destruct E as (G1 & EG & E). rewrite EG. cbn [bind].
  apply bind_ok in E. destruct E as (L1 & EL & E). destruct (grainsize_sync _ _ _ _ _ RR EL) as (Lc & EC & FC). rewrite EC. cbn [bind].
  apply bind_ok in E. destruct E as (G2 & EG2 & E). rewrite EG2. cbn [bind]. injection E as <- <-. exists Lc. split; [reflexivity|exact FC].
Qed.

(** ** Motion *)
Definition vsums (ds : list (V3 R)) (v : V3 R) : V3 R := fold_left vadd ds v.
Lemma vsums_comm b c (v : V3 R) : vsums b (vsums c v) = vsums c (vsums b v).
Proof.
  assert (V1 : forall ds d (w : V3 R), vsums ds (vadd w d) = vadd (vsums ds w) d).
  { intros ds. induction ds as [|e ds IH]; intros d w; [reflexivity|]. cbn. rewrite vadd_swap. apply IH. }
  revert v. induction b as [|d b IH]; intros v; [reflexivity|]. change (vsums b (vadd (vsums c v) d) = vsums c (vsums b (vadd v d))). rewrite <- IH. f_equal. symmetry. apply V1.
Qed.
Definition vsplits (f : V3 R -> res (particle R * V3 R)) : Type :=
  { r : res (particle R * list (V3 R)) | forall v, f v = (p <- r ;; Ok (fst p, vsums (snd p) v)) }.
Lemma vsplits_bind {A} (m : res A) (k : A -> V3 R -> res (particle R * V3 R)) : (forall a, vsplits (k a)) -> vsplits (fun v => a <- m ;; k a v).
Proof. intros H. destruct m as [a|e]; [destruct (H a) as [r Hr]; exists r; exact Hr|exists (Err e); reflexivity]. Qed.
Lemma vsplits_fold (f : particle R * V3 R -> nat -> res (particle R * V3 R)) l :
  (forall p r, vsplits (fun v => f (p, v) r)) -> forall p, vsplits (fun v => foldM f (p, v) l).
Proof.
  intros H. induction l as [|r l IH]; intros p.
  - exists (Ok (p, [])). reflexivity.
  - destruct (H p r) as [x Hx]. destruct x as [[p1 ds]|e].
    + destruct (IH p1) as [y Hy]. exists (q <- y ;; Ok (fst q, ds ++ snd q)). intros v. cbn [foldM]. rewrite Hx. cbn [bind fst snd]. rewrite Hy.
      destruct y as [[p2 ds2]|]; cbn [bind fst snd]; [|reflexivity]. unfold vsums. rewrite fold_left_app. reflexivity.
    + exists (Err e). intros v. cbn [foldM]. rewrite Hx. reflexivity.
Qed.
Lemma move_splits P G (p : particle R) : vsplits (move_material_point P G p).
Proof.
  unfold move_material_point, four.
  match goal with |- vsplits (fun sv => bind (foldM ?f (p, sv) ?l) _) => destruct (vsplits_fold f l) with (p := p) as [x Hx] end.
  - intros q r. cbv beta iota zeta. apply vsplits_bind. intros m. destruct (nltb (p_Mtol P) m).
    + apply vsplits_bind. intros a. apply vsplits_bind. intros d. cbn [pv set]. destruct (pv q) as [w|].
      * eexists (Ok (_, [])). intros v. reflexivity.
      * eexists (Ok (_, [_])). intros v. reflexivity.
    + exists (Ok (q, [])). reflexivity.
  - destruct x as [[p1 ds]|e].
    + exists (rho <- four P (pnstar p1) (fun rho r n => m <- py_get (gm G) n ;; if nltb (p_Mtol P) m then V <- py_get (gV G) n ;; Ok (nadd rho (ndiv (nmul (Nr p1 r) m) V)) else Ok rho) n0 ;;
              Ok (p1 <| prho := rho |>, ds)). intros v. rewrite Hx. cbn [bind fst snd]. unfold four. destruct (foldM _ n0 _); reflexivity.
    + exists (Err e). intros v. rewrite Hx. reflexivity.
Qed.
Lemma phases_sync (f : phase R -> res (phase R)) :
  (forall a b a', reordered a b -> f a = Ok a' -> exists b', f b = Ok b' /\ reordered a' b' /\ alike a b a' b') ->
  forall La Lb La', Forall2 reordered La Lb -> phases_ f La = Ok La' -> exists Lb', phases_ f Lb = Ok Lb' /\ follows La Lb La' Lb'.
Proof.
  intros Hf La Lb La' RR E. unfold phases_ in *. apply bind_ok in E. destruct E as ([L u] & E0 & E). injection E as <-.
  edestruct (forM_sync (fun (_ : nat) ph (_ : unit) => ph <- f ph ;; Ok (ph, tt)) (fun _ => True)) as (_ & Lb' & EL & R & A); [|exact RR|exact I|exact E0|].
  - intros k a b s a' s' R _ EE. pbinds EE. injection EE as <- <-. split; [exact I|]. destruct (Hf _ _ _ R E) as (b' & Eb & R' & A'). exists b'. cbv beta. rewrite Eb. auto.
  - exists Lb'. rewrite EL. cbn. split; [reflexivity|split; assumption].
Qed.
Lemma map_sync (a b : phase R) (g : particle R -> particle R) sv : reordered a b ->
  let a' := a <| ph_pts := map g (ph_pts a) |> <| ph_sv := sv |> in let b' := b <| ph_pts := map g (ph_pts b) |> <| ph_sv := sv |> in
  reordered a' b' /\ alike a b a' b'.
Proof.
  intros R a' b'. assert (A : alike a b a' b').
  { split; [reflexivity|]. exists (fun p => Some (g p)), []. cbn. rewrite !omap_some, !app_nil_r. split; reflexivity. }
  split; [|exact A]. refine (alike_reordered a b a' b' R A eq_refl eq_refl _ _); destruct R as (_ & N & _ & _ & C); cbn; [exact N|]. rewrite map_length. exact C.
Qed.
Lemma move_sync (P : params R) G La Lb La' : Forall2 reordered La Lb -> move_all P G La = Ok La' -> exists Lb', move_all P G Lb = Ok Lb' /\ follows La Lb La' Lb'.
Proof.
  unfold move_all. apply phases_sync. intros a b a' RO E. pose proof RO as (S & N & V & PM & C). rewrite <- S. destruct (is_rigid _).
  - pbinds E. injection E as <-. rewrite C in E0.
    destruct (each_perm (A := particle R) (fun (_ : unit) (_ : unit) => Ok tt)) with (f := fun p (_ : unit) => p <- move_rigid_point P p ;; Ok (p, tt)) (part := fun p => p <- move_rigid_point P p ;; Ok (p, tt))
      (Inv := fun _ : unit => True) (l := ph_pts a) (m := ph_pts b) (s := tt) (l' := b0) (s' := b1) as (-> & _ & Eb); auto.
    + intros _ _ s s1 s2 _ X. exists tt. split; [reflexivity|exact X].
    + intros p s _. destruct (move_rigid_point P p); reflexivity.
    + rewrite <- N, C, (Permutation_length PM), Eb. cbn [bind]. eexists. split; [reflexivity|].
      pose proof (map_sync a b (gpart (fun p => p <- move_rigid_point P p ;; Ok (p, tt))) (ph_sv a) RO) as [R' A']. destruct a, b. cbn in *. subst. split; assumption.
  - pbinds E. injection E as <-. rewrite C in E0.
    destruct (each_perm (A := particle R) (fun ds v => Ok (vsums ds v))) with (f := move_material_point P G) (part := fun p => proj1_sig (move_splits P G p))
      (Inv := fun _ : V3 R => True) (l := ph_pts a) (m := ph_pts b) (s := ph_sv a) (l' := b0) (s' := b1) as (-> & _ & Eb); auto.
    + intros x y s s1 s2 E1 E2. injection E1 as <-. injection E2 as <-. eexists. split; [reflexivity|]. rewrite vsums_comm. reflexivity.
    + intros p s _. destruct (move_splits P G p) as [r Hr]. cbn [proj1_sig]. rewrite Hr. destruct r; reflexivity.
    + rewrite <- N, C, (Permutation_length PM), <- V, Eb. cbn [bind]. eexists. split; [reflexivity|]. apply map_sync, RO.
Qed.
