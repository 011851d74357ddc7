(** * Moving the origin of the coordinates: definitions and one-point steps. *)
From Coq Require Import ZArith List Bool Arith Lia Reals Lra String.
From Verif Require Import State NumR Spec LibList LibR ModelGrid ModelConstit ModelParticle ModelMPList ModelIntegr ModelMain ProofsGrid Concrete ThmMapping ThmStep.
Import ListNotations.
Local Open Scope R_scope.

Definition rmap {A B} (f : A -> B) (r : res A) : res B := match r with Ok a => Ok (f a) | Err e => Err e end.
Definition pr {A A' B B'} (f : A -> A') (g : B -> B') (x : A * B) : A' * B' := (f (fst x), g (snd x)).

(** The same simulation with the origin of the coordinates moved: the points, the nodes and the extents of the domain are shifted by [(a, b)]. *)
Section Moved.
  Context (a b : R).
  Definition shv (v : V3 R) : V3 R := mkV3 (vx v + a) (vy v + b) (vz v).
  Definition shp (p : particle R) : particle R := p <| px := shv (px p) |>.
  Definition shph (ph : phase R) : phase R := ph <| ph_pts := map shp (ph_pts ph) |>.
  Definition shL : list (phase R) -> list (phase R) := map shph.
  Definition shG (G : grid R) : grid R := G <| gX := map (fun x => x + a) (gX G) |> <| gY := map (fun y => y + b) (gY G) |>.
  Definition shg (P : gridp R) : gridp R :=
    P <| x_m := x_m P + a |> <| x_M := x_M P + a |> <| y_m := y_m P + b |> <| y_M := y_M P + b |>.
  Definition shP (P : params R) : params R := P <| pG := shg (pG P) |>.
  Definition shS (s : state R) : state R := mkState (shP (sP s)) (shG (sG s)) (shL (sL s)).
End Moved.

(** ** Loops *)
Lemma foldM_sh {S S' A} (h : S -> S') (f : S -> A -> res S) (f' : S' -> A -> res S') l :
  (forall s x, f' (h s) x = rmap h (f s x)) -> forall s, foldM f' (h s) l = rmap h (foldM f s l).
Proof.
  intros HF. induction l as [|x l IH]; intros s; [reflexivity|]. cbn [foldM]. rewrite HF.
  destruct (f s x) as [s1|e]; [apply IH|reflexivity].
Qed.
Lemma four_sh a b {S S'} (h : S -> S') (P : params R) n (f : S -> nat -> Z -> res S) (f' : S' -> nat -> Z -> res S') :
  (forall s r k, f' (h s) r k = rmap h (f s r k)) -> forall s, four (shP a b P) n f' (h s) = rmap h (four P n f s).
Proof. intros HF s. unfold four. apply (foldM_sh h). intros. apply HF. Qed.
Lemma each_sh {S S' A A'} (g : A -> A') (h : S -> S') (f : A -> S -> res (A * S)) (f' : A' -> S' -> res (A' * S')) n : forall l,
  (forall x, In x (firstn n l) -> forall s, f' (g x) (h s) = rmap (pr g h) (f x s)) ->
  forall s, each n f' (map g l) (h s) = rmap (pr (map g) h) (each n f l s).
Proof.
  induction n as [|n IH]; intros l HF s; [reflexivity|]. destruct l as [|x l]; [reflexivity|]. cbn [each map].
  rewrite (HF x (or_introl eq_refl)). destruct (f x s) as [[x1 s1]|e]; [|reflexivity]. cbn [rmap pr bind fst snd].
  rewrite IH by (intros y Hy; apply HF; right; exact Hy). destruct (each n f l s1) as [[l1 s2]|e]; reflexivity.
Qed.
Lemma forM_sh {S S' A A'} (g : A -> A') (h : S -> S') (f : nat -> A -> S -> res (A * S)) (f' : nat -> A' -> S' -> res (A' * S')) : forall l,
  (forall k x, In x l -> forall s, f' k (g x) (h s) = rmap (pr g h) (f k x s)) ->
  forall k s, forM f' k (map g l) (h s) = rmap (pr (map g) h) (forM f k l s).
Proof.
  induction l as [|x l IH]; intros HF k s; [reflexivity|]. cbn [forM map].
  rewrite (HF k x (or_introl eq_refl)). destruct (f k x s) as [[x1 s1]|e]; [|reflexivity]. cbn [rmap pr bind fst snd].
  rewrite IH by (intros j y Hy; apply HF; right; exact Hy). destruct (forM f (Datatypes.S k) l s1) as [[l1 s2]|e]; reflexivity.
Qed.
Lemma points_sh a b {S S'} (h : S -> S') (f : nat -> phase R -> particle R -> S -> res (particle R * S)) (f' : nat -> phase R -> particle R -> S' -> res (particle R * S')) L :
  (forall k ph p, In ph L -> In p (live ph) -> forall s, f' k (shph a b ph) (shp a b p) (h s) = rmap (pr (shp a b) h) (f k ph p s)) ->
  forall s, points f' (shL a b L) (h s) = rmap (pr (shL a b) h) (points f L s).
Proof.
  intros HF s. unfold points, shL. apply (forM_sh (shph a b) h). intros k ph Hph s1.
  change (ph_n (shph a b ph)) with (ph_n ph). change (ph_pts (shph a b ph)) with (map (shp a b) (ph_pts ph)).
  rewrite (each_sh (shp a b) h (f k ph)) by (intros p Hp s2; apply HF; assumption).
  destruct (each (ph_n ph) (f k ph) (ph_pts ph) s1) as [[pts s2]|e]; reflexivity.
Qed.
Lemma points__sh a b (f f' : nat -> phase R -> particle R -> res (particle R)) L :
  (forall k ph p, In ph L -> In p (live ph) -> f' k (shph a b ph) (shp a b p) = rmap (shp a b) (f k ph p)) ->
  points_ f' (shL a b L) = rmap (shL a b) (points_ f L).
Proof.
  intros HF. unfold points_. change tt with ((fun x : unit => x) tt) at 1.
  rewrite (points_sh a b (fun x : unit => x) (fun k ph p (_ : unit) => p <- f k ph p ;; Ok (p, tt))).
  - destruct (points _ L tt) as [[L1 u]|e]; reflexivity.
  - intros k ph p H1 H2 []. rewrite HF by assumption. destruct (f k ph p); reflexivity.
Qed.
Lemma points_r_sh a b {S S'} (h : S -> S') (f : nat -> phase R -> particle R -> S -> res S) (f' : nat -> phase R -> particle R -> S' -> res S') L :
  (forall k ph p, In ph L -> In p (live ph) -> forall s, f' k (shph a b ph) (shp a b p) (h s) = rmap h (f k ph p s)) ->
  forall s, points_r f' (shL a b L) (h s) = rmap h (points_r f L s).
Proof.
  intros HF s. unfold points_r. rewrite (points_sh a b h (fun k ph p s => s <- f k ph p s ;; Ok (p, s))).
  - destruct (points _ L s) as [[L1 u]|e]; reflexivity.
  - intros k ph p H1 H2 s1. rewrite HF by assumption. destruct (f k ph p s1); reflexivity.
Qed.
Lemma phases__sh a b (f f' : phase R -> res (phase R)) L :
  (forall ph, f' (shph a b ph) = rmap (shph a b) (f ph)) -> phases_ f' (shL a b L) = rmap (shL a b) (phases_ f L).
Proof.
  intros HF. unfold phases_, shL.
  pose proof (forM_sh (shph a b) (fun x : unit => x) (fun _ ph (_ : unit) => ph <- f ph ;; Ok (ph, tt)) (fun _ ph (_ : unit) => ph <- f' ph ;; Ok (ph, tt)) L) as E.
  cbv beta in E. rewrite E.
  - destruct (forM _ 0 L tt) as [[L1 u]|e]; reflexivity.
  - intros k ph _ []. rewrite HF. destruct (f ph); reflexivity.
Qed.

(** Steps whose reads do not mention coordinates. *)
Ltac sh1 := lazymatch goal with
  | |- bind ?x ?k = rmap ?h (bind ?y ?l) =>
      change (bind y k = rmap h (bind y l)); destruct y as [?|?]; [cbn [bind]|reflexivity]
  | |- (if ?c then ?u else ?v) = rmap ?h (if ?d then ?w else ?z) =>
      change ((if d then u else v) = rmap h (if d then w else z)); destruct d
  | |- Ok _ = rmap _ (Ok _) => reflexivity
  | |- Err _ = rmap _ (Err _) => reflexivity
  end.

Section Moves.
  Context (a b : R).
  Notation shp := (shp a b). Notation shG := (shG a b). Notation shP := (shP a b). Notation shL := (shL a b). Notation shph := (shph a b). Notation shv := (shv a b).

  Lemma visualise_sh P MP fs G : visualise (shP P) (shp MP) fs (shG G) = rmap shG (visualise P MP fs G).
  Proof.
    unfold visualise. apply (four_sh a b shG). intros G1 r k. apply (foldM_sh shG). intros G2 [f w]. unfold sadd. cbn [fst snd].
    change (sget f (shG G2)) with (match f with Fgammadot => f_gammadot G2 | Fyield => f_yield G2 | Fpressure => f_pressure G2
      | Fsigmah => f_sigmah G2 | Fsigmav => f_sigmav G2 | Fdev => f_dev G2 | Fdevdot => f_devdot G2
      | Fmu_s => f_mu_s G2 | Fmu => f_mu G2 | FI => f_I G2 | Feta => f_eta G2 end).
    change (Nr (shp MP) r) with (Nr MP r).
    change (match f with Fgammadot => _ | _ => _ end) with (sget f G2).
    destruct (py_upd (sget f G2) k _) as [l|e]; [|reflexivity]. cbn [bind rmap]. destruct f; reflexivity.
  Qed.
  Lemma vis_bind P MP MP' fs fs' G G' k k' : MP' = shp MP -> fs' = fs -> G' = shG G ->
    (forall G, k' (shG G) = rmap (pr shp shG) (k G)) ->
    bind (visualise (shP P) MP' fs' G') k' = rmap (pr shp shG) (bind (visualise P MP fs G) k).
  Proof.
    intros -> -> -> HK. rewrite visualise_sh. destruct (visualise P MP fs G) as [G1|e]; [apply HK|reflexivity].
  Qed.
  Ltac vis := lazymatch goal with
    | |- bind (visualise _ _ _ _) _ = rmap _ (bind (visualise _ _ _ _) _) =>
        apply vis_bind; [reflexivity|reflexivity|reflexivity|intros; reflexivity]
    end.
  Ltac law := cbv zeta; repeat (first [vis | sh1]).
  Lemma apply_law_sh P S0 S k MP G : apply_law (shP P) S0 S k (shp MP) (shG G) = rmap (pr shp shG) (apply_law P S0 S k MP G).
  Proof.
    unfold apply_law. destruct (s_law S); try reflexivity.
    - unfold elastic. law.
    - unfold elastic_time. law.
    - unfold von_mises. law.
    - unfold dp. change (pdstrain (shp MP)) with (pdstrain MP). change (pstress (shp MP)) with (pstress MP). law.
      match goal with |- context [match RK4 ?f ?s ?t with _ => _ end] => destruct (RK4 f s t) as [? [? ?]] end. law.
    - unfold dp_rate. change (pdstrain (shp MP)) with (pdstrain MP). change (pstress (shp MP)) with (pstress MP). law.
      match goal with |- context [match dp_rate_guts ?u ?v ?w ?f ?z ?s ?t with _ => _ end] => destruct (dp_rate_guts u v w f z s t) as [? [? ?]] end. law.
    - unfold viscous. law.
    - unfold bingham. law.
    - unfold ken_kamrin. replace (y_M (pG (shP P)) - y_m (pG (shP P)))%num with (y_M (pG P) - y_m (pG P)) by (cbn; ring). law.
    - unfold pouliquen. law.
    - unfold linear_mu. law.
    - unfold ken_simple. law.
  Qed.

  Lemma update_strain_sh P G p : update_strain (shP P) (shG G) (shp p) = rmap shp (update_strain P G p).
  Proof.
    unfold update_strain. change (pnstar (shp p)) with (pnstar p).
    rewrite (four_sh a b (fun x => x) P (pnstar p) (fun dl r n => v <- nodal_velocity P G n ;;
          let L := outer v (Gr p r) in let L_T := outer (Gr p r) v in
          Ok (madd (fst dl) (mmuls (mscale nhalf (madd L L_T)) (p_dt P)), madd (madd (snd dl) L) L_T))).
    - destruct (four P (pnstar p) _ (m0, m0)) as [[d Lb]|e]; reflexivity.
    - intros s r k. sh1. reflexivity.
  Qed.
  Lemma update_stress_sh P S0 S k p G : update_stress (shP P) S0 S k (shp p) (shG G) = rmap (pr shp shG) (update_stress P S0 S k p G).
  Proof.
    unfold update_stress. rewrite apply_law_sh. destruct (apply_law P S0 S k p G) as [[p1 G1]|e]; reflexivity.
  Qed.
  Lemma ref_node_sh P G p : get_reference_node (shP P) (shG G) (shp p) = rmap shp (get_reference_node P G p).
  Proof.
    unfold get_reference_node. cbv zeta.
    replace ((vx (px (shp p)) - x_m (pG (shP P))) / gdx (shG G))%num with ((vx (px p) - x_m (pG P)) / gdx G)%num by (cbn; unfold Rdiv; ring).
    replace ((vy (px (shp p)) - y_m (pG (shP P))) / gdy (shG G))%num with ((vy (px p) - y_m (pG P)) / gdy G)%num by (cbn; unfold Rdiv; ring).
    change (nx (pG (shP P))) with (nx (pG P)). destruct (nint _) as [z|[]]; reflexivity.
  Qed.
  Lemma nth_res_map {A B} (f : A -> B) l n : nth_res (map f l) n = rmap f (nth_res l n).
  Proof. unfold nth_res. rewrite nth_error_map. destruct (nth_error l n); reflexivity. Qed.
  Lemma py_get_map {A B} (f : A -> B) l n : py_get (map f l) n = rmap f (py_get l n).
  Proof. unfold py_get, py_idx. rewrite map_length. cbv zeta. repeat match goal with |- context [if ?c then _ else _] => destruct c end; cbn [bind]; try apply nth_res_map; reflexivity. Qed.
  Lemma basis_sh G p : get_basis_functions (shG G) (shp p) = rmap shp (get_basis_functions G p).
  Proof.
    unfold get_basis_functions. change (gX (shG G)) with (map (fun x => x + a) (gX G)). change (gY (shG G)) with (map (fun x => x + b) (gY G)).
    rewrite !py_get_map. change (pnstar (shp p)) with (pnstar p). change (gdx (shG G)) with (gdx G). change (gdy (shG G)) with (gdy G).
    destruct (py_get (gX G) (pnstar p)) as [X|e]; [|reflexivity]. destruct (py_get (gY G) (pnstar p)) as [Y|e]; [|reflexivity]. cbn [rmap bind].
    replace (vsub (px (shp p)) (mkV3 (X + a) (Y + b) n0)) with (vsub (px p) (mkV3 X Y (n0 (T := R)))).
    - destruct (shape _ _ _) as [N g]. reflexivity.
    - unfold vsub, vmap2, Verif.ProofsShift.shp, Verif.ProofsShift.shv. cbn [px vx vy vz set]. cbn. f_equal; ring.
  Qed.
  Lemma p2g_sh P sv p G : p2g (shP P) sv (shp p) (shG G) = rmap shG (p2g P sv p G).
  Proof.
    unfold p2g. apply (four_sh a b shG). intros G1 r k. cbv zeta. do 2 sh1. sh1; repeat sh1.
  Qed.
  Lemma map_phi_sh P G p : map_phi_to_mp (shP P) (shG G) (shp p) = rmap shp (map_phi_to_mp P G p).
  Proof. unfold map_phi_to_mp. apply (four_sh a b shp). intros p1 r k. repeat sh1. Qed.
  Lemma shv_add (u v : V3 R) : vadd (shv u) v = shv (vadd u v).
  Proof. unfold vadd, vmap2, Verif.ProofsShift.shv. cbn. f_equal; ring. Qed.
  Lemma set_px_sh (p : particle R) w : (shp p) <| px := vadd (px (shp p)) w |> = shp (p <| px := vadd (px p) w |>).
  Proof.
    change (px (shp p)) with (shv (px p)). rewrite shv_add. reflexivity.
  Qed.
  Lemma move_sh P G p sv : move_material_point (shP P) (shG G) (shp p) sv = rmap (pr shp (fun v => v)) (move_material_point P G p sv).
  Proof.
    unfold move_material_point. change (pnstar (shp p)) with (pnstar p).
    change (shp p, sv) with (pr shp (fun v : V3 R => v) (p, sv)).
    match goal with |- _ = rmap _ (bind (four P _ ?f _) _) => rewrite (four_sh a b (pr shp (fun v => v)) P (pnstar p) f) end.
    2:{ intros [p1 sv1] r k. cbn [pr fst snd]. repeat sh1. cbv zeta. change (Nr (shp p1) r) with (Nr p1 r). rewrite set_px_sh.
        change (p_dt (shP P)) with (p_dt P). set (p2 := p1 <| px := _ |>). change (pv (shp p2)) with (pv p2). destruct (pv p2); reflexivity. }
    destruct (four P _ _ _) as [[p1 sv1]|e]; [|reflexivity]. cbn [bind rmap pr fst snd].
    change (pnstar (shp p1)) with (pnstar p1).
    match goal with |- _ = rmap _ (bind (four P _ ?f _) _) => rewrite (four_sh a b (fun v => v) P (pnstar p1) f) end.
    2:{ intros rho r k. sh1. sh1; [sh1|]; reflexivity. }
    destruct (four P _ _ _) as [rho|e]; reflexivity.
  Qed.
  Lemma rigid_sh P p : move_rigid_point (shP P) (shp p) = rmap shp (move_rigid_point P p).
  Proof.
    unfold move_rigid_point. sh1. change (p_dt (shP P)) with (p_dt P). rewrite set_px_sh. reflexivity.
  Qed.
  Lemma forces_sh P p G : nodal_forces (shP P) (shp p) (shG G) = rmap shG (nodal_forces P p G).
  Proof. unfold nodal_forces. apply (four_sh a b shG). intros G1 r k. repeat sh1. Qed.
End Moves.
