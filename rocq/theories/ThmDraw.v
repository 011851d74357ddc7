(** * What the pictures show: C118, C119, C120. *)
From Coq Require Import ZArith Reals List Bool Arith Lra Lia.
From RecordUpdate Require Import RecordUpdate.
From Verif Require Import State NumR NumX Spec SpecLaws SpecStep LibList LibR ModelGrid ModelConstit ModelParticle ModelMPList
  ModelIntegr ModelMain ModelSave ModelDraw ProofsGrid ProofsMap Concrete ThmMapping ThmFrac ThmSave.
Import ListNotations.
Local Existing Instance Num_R.
Local Open Scope R_scope.

(** ** C118: where a picture of the grid puts things *)
Lemma made_ok (P : gridp R) B G : proper P -> grid_init P B = Ok G -> grid_ok P G /\ btot G = zipw orb (bv G) (bh G).
Proof.
  intros HP E. destruct (grid_init_ok P B HP) as (G' & E' & K). rewrite E in E'. injection E' as <-. split; [exact K|].
  unfold grid_init in E. pbinds E. injection E as <-. reflexivity.
Qed.
Lemma tl_nth {A} (l : list A) i d : nth i (tl l) d = nth (S i) l d.
Proof. destruct l; [destruct i|]; reflexivity. Qed.
Lemma removelast_nth {A} (l : list A) i d : (S i < length l)%nat -> nth i (removelast l) d = nth i l d.
Proof.
  revert i. induction l as [|a l IH]; intros i H; [cbn in H; lia|]. destruct l as [|b l]; [cbn in H; lia|].
  change (removelast (a :: b :: l)) with (a :: removelast (b :: l)). destruct i; [reflexivity|]. cbn [nth]. apply IH. cbn in H |- *. lia.
Qed.
Lemma removelast_len {A} (l : list A) : length (removelast l) = pred (length l).
Proof. induction l as [|a [|b l] IH]; [reflexivity|reflexivity|]. change (removelast (a :: b :: l)) with (a :: removelast (b :: l)). cbn [length] in *. lia. Qed.
Lemma tl_len {A} (l : list A) : length (tl l) = pred (length l).
Proof. destruct l; reflexivity. Qed.

Lemma edges_spec (lo hi : R) n : (2 <= n)%nat -> let h := (hi - lo) / (INR n - 1) in let E := edges lo hi h (linspace lo hi n) in
  length E = S n /\ forall i, (i <= n)%nat -> nth i E 0 = lo + (INR i - 1 / 2) * h.
Proof.
  intros Hn h E. assert (LZ : length (zipw (fun b c => ((b + c) / nofZ 2)%num) (tl (linspace lo hi n)) (removelast (linspace lo hi n))) = (n - 1)%nat).
  { rewrite zipw_length, tl_len, removelast_len, linspace_len. lia. }
  assert (K1 : INR n - 1 <> 0). { apply (le_INR 2) in Hn. cbn in Hn. lra. }
  split.
  - unfold E, edges. cbn [length]. rewrite app_length, LZ. cbn [length]. lia.
  - intros i Hi. unfold E, edges. destruct i as [|i]; [cbn [nth]; unR; cbn [INR]; lra|]. cbn [nth].
    destruct (Nat.eq_dec i (n - 1)) as [->|Ni].
    + rewrite app_nth2 by lia. rewrite LZ, Nat.sub_diag. cbn [nth]. unR. replace (S (n - 1)) with n by lia.
      replace hi with (lo + (INR n - 1) * h) at 1 by (unfold h; field; exact K1). lra.
    + rewrite app_nth1 by lia. rewrite (zipw_nth _ _ _ _ 0 0 0) by (rewrite ?tl_len, ?removelast_len, linspace_len; lia).
      rewrite tl_nth, removelast_nth by (rewrite linspace_len; lia). rewrite !linspace_nth by lia. fold h. unR. rewrite S_INR. lra.
Qed.

(** The cell of a picture in which the value of the node in column [i] and row [j] is drawn reaches half a spacing to every
    side of the node; so a value is drawn around its own node, and the cells cover the picture without a gap. *)
Lemma p_C118_cells : forall P B G, proper P -> grid_init P B = Ok G -> let X := x_plot P G in let Y := y_plot P G in
  length X = S (nx P) /\ length Y = S (ny P) /\
  forall i j, (i < nx P)%nat -> (j < ny P)%nat -> let x := node_x P (j * nx P + i) in let y := node_y P (j * nx P + i) in
    nth i X 0 = x - cell_w P / 2 /\ nth (S i) X 0 = x + cell_w P / 2 /\ nth j Y 0 = y - cell_h P / 2 /\ nth (S j) Y 0 = y + cell_h P / 2.
Proof.
  intros P B G HP E X Y. destruct (made_ok P B G HP E) as [K _]. destruct HP as (Hx & Hy & _ & _).
  assert (EX : X = edges (x_m P) (x_M P) (cell_w P) (linspace (x_m P) (x_M P) (nx P))) by (unfold X, x_plot; rewrite (go_dx _ _ K); reflexivity).
  assert (EY : Y = edges (y_m P) (y_M P) (cell_h P) (linspace (y_m P) (y_M P) (ny P))) by (unfold Y, y_plot; rewrite (go_dy _ _ K); reflexivity).
  destruct (edges_spec (x_m P) (x_M P) (nx P) Hx) as [LX NX]. destruct (edges_spec (y_m P) (y_M P) (ny P) Hy) as [LY NY]. cbv zeta in LX, NX, LY, NY.
  fold (cell_w P) in LX, NX. fold (cell_h P) in LY, NY. rewrite <- EX in LX, NX. rewrite <- EY in LY, NY.
  split; [exact LX|]. split; [exact LY|]. intros i j Hi Hj x y.
  assert (Ec : col P (j * nx P + i) = i). { unfold col. rewrite Nat.add_comm, Nat.mod_add by lia. apply Nat.mod_small, Hi. }
  assert (Er : row P (j * nx P + i) = j). { unfold row. rewrite Nat.add_comm, Nat.div_add by lia. rewrite Nat.div_small by exact Hi. reflexivity. }
  unfold x, y, node_x, node_y. rewrite Ec, Er, !NX, !NY, !S_INR by lia. repeat split; lra.
Qed.
Example x_C118_cells : proper ex_gridp /\ exists G, grid_init (T := R) ex_gridp ex_box = Ok G /\ nth 1 (x_plot ex_gridp G) 0 = 1 / 2.
Proof.
  pose proof ex_proper as HP. split; [exact HP|]. destruct (grid_init_ok ex_gridp ex_box HP) as (G & E & _). exists G. split; [exact E|].
  destruct (p_C118_cells ex_gridp ex_box G HP E) as (_ & _ & H). destruct (H 0%nat 0%nat) as (_ & -> & _); [cbn; lia|cbn; lia|].
  unfold node_x, cell_w, col. cbn. lra.
Qed.

(** The three kinds of marks of [draw_grid]: green pluses for the nodes that are free, red crosses for the walls that stop
    the flow up and down, red pluses for those that stop it to the left and right. *)
Inductive mark_kind := Green | Cross | Plus.
Definition marks_of (k : mark_kind) (D : list (R * R) * list (R * R) * list (R * R)) : list (R * R) :=
  match k with Green => fst (fst D) | Cross => snd (fst D) | Plus => snd D end.
Definition is_kind (G : grid R) (k : mark_kind) (n : nat) : bool :=
  match k with Green => negb (nth n (bv G) false || nth n (bh G) false) | Cross => nth n (bh G) false | Plus => nth n (bv G) false end.

Lemma marks_nth P G (b : list bool) k : grid_ok P G -> length b = nodes P -> (k < nodes P)%nat ->
  nth k (marks G b) (0, 0) = if nth k b false then (node_x P k, node_y P k) else (0, 0).
Proof.
  intros K HL Hk. unfold marks.
  rewrite (zipw_nth _ _ _ _ (0, 0) false (0, 0)) by (rewrite ?combine_length, ?(go_Xlen _ _ K), ?(go_Ylen _ _ K), ?HL; lia).
  rewrite combine_nth by (rewrite (go_Xlen _ _ K), (go_Ylen _ _ K); reflexivity). cbn [fst snd].
  rewrite (go_X _ _ K k Hk), (go_Y _ _ K k Hk). unfold b2n. unR. destruct (nth k b false); f_equal; lra.
Qed.
Lemma marks_len P G (b : list bool) : grid_ok P G -> length b = nodes P -> length (marks G b) = nodes P.
Proof. intros K HL. unfold marks. rewrite zipw_length, combine_length, (go_Xlen _ _ K), (go_Ylen _ _ K), HL. lia. Qed.

(** A mark for every node and kind: at the node when it is of that kind, at the point (0, 0) when it is not. *)
Lemma p_C118_overlay : forall P B G, proper P -> grid_init P B = Ok G -> forall kind, let D := marks_of kind (draw_grid G) in
  length D = nodes P /\ forall k, (k < nodes P)%nat -> nth k D (0, 0) = if is_kind G kind k then (node_x P k, node_y P k) else (0, 0).
Proof.
  intros P B G HP E kind D. destruct (made_ok P B G HP E) as [K EB].
  destruct kind; unfold D; cbn [marks_of draw_grid fst snd is_kind].
  - assert (HL : length (map negb (btot G)) = nodes P) by (rewrite map_length; apply K).
    split; [exact (marks_len P G _ K HL)|]. intros k Hk. rewrite (marks_nth P G _ k K HL Hk).
    rewrite nth_map_lt with (d := false) by (rewrite (go_btot _ _ K); exact Hk).
    rewrite EB, (zipw_nth _ _ _ _ false false false) by (rewrite ?(go_bv _ _ K), ?(go_bh _ _ K); exact Hk). reflexivity.
  - split; [exact (marks_len P G _ K (go_bh _ _ K))|]. intros k Hk. apply (marks_nth P G _ k K (go_bh _ _ K) Hk).
  - split; [exact (marks_len P G _ K (go_bv _ _ K))|]. intros k Hk. apply (marks_nth P G _ k K (go_bv _ _ K) Hk).
Qed.
Example x_C118_overlay : exists G, grid_init (T := R) ex_gridp ex_box = Ok G /\ is_kind G Cross 1 = true /\ is_kind G Green 5 = true /\ is_kind G Plus 5 = false.
Proof. destruct (grid_init_ok ex_gridp ex_box ex_proper) as (G & E & _). exists G. split; [exact E|]. unfold grid_init in E. pbinds E. injection E as <-. cbn. auto. Qed.

(** The marks of the nodes that are not of a kind are drawn all the same, at (0, 0): the picture of a grid without a wall
    has a red cross, and the picture of a box a green plus on its corner. *)
Lemma p_C118_overlay_refuted : ~ forall P B G, proper P -> grid_init P B = Ok G -> forall kind xy, In xy (marks_of kind (draw_grid G)) ->
  exists k, (k < nodes P)%nat /\ is_kind G kind k = true /\ xy = (node_x P k, node_y P k).
Proof.
  intros H. destruct (grid_init_ok ex_gridp ex_bounds ex_proper) as (G & E & K).
  destruct (p_C118_overlay ex_gridp ex_bounds G ex_proper E Cross) as [HL HN]. cbv zeta in *.
  destruct (H ex_gridp ex_bounds G ex_proper E Cross (nth 0 (marks_of Cross (draw_grid G)) (0, 0))) as (k & Hk & C & _).
  { apply nth_In. rewrite HL. cbn. lia. }
  cbn [is_kind] in C. clear - E C Hk. unfold grid_init in E. pbinds E. injection E as <-. cbn [bh] in C. 
  change (nodes ex_gridp) with 12%nat in Hk. do 12 (destruct k as [|k]; [discriminate|]). lia.
Qed.

(** ** C119: the panels of [draw_continuum] *)
Lemma reshape_inv (P : gridp R) (a : list R) D : reshape P a = Ok D -> length a = (nx P * ny P)%nat /\ gridlike P D /\
  forall i j, (i < nx P)%nat -> (j < ny P)%nat -> cell 0 D i j = nth (j * nx P + i) a 0.
Proof.
  intros E. assert (L : length a = (nx P * ny P)%nat).
  { unfold reshape in E. destruct (Nat.eqb_spec (length a) (ny P * nx P)) as [H|H]; [lia|discriminate]. }
  destruct (reshape_spec P a 0 L) as (D' & E' & X). rewrite E in E'. injection E' as <-. auto.
Qed.
Lemma cell_map {A B} (f : A -> B) (P : gridp R) D d e i j : gridlike P D -> (i < nx P)%nat -> (j < ny P)%nat -> cell e (map (map f) D) i j = f (cell d D i j).
Proof.
  intros [L F] Hi Hj. unfold cell. rewrite (nth_indep _ [] (map f [])) by (rewrite map_length, L; exact Hj). rewrite map_nth.
  assert (R : length (nth j D []) = nx P) by (rewrite Forall_forall in F; apply F, nth_In; rewrite L; exact Hj).
  rewrite (nth_indep _ e (f d)) by (rewrite map_length, R; exact Hi). apply map_nth.
Qed.
Lemma gridlike_map {A B} (f : A -> B) (P : gridp R) D : gridlike P D -> gridlike P (map (map f) D).
Proof. intros [L F]. split; [rewrite map_length; exact L|]. apply Forall_forall. intros r H. apply in_map_iff in H as (r' & <- & H). rewrite map_length. rewrite Forall_forall in F. auto. Qed.
Lemma drawn_cell {A} (f : R -> option A) (P : gridp R) (z m : list R) D i j : reshape P (zipw ndiv z m) = Ok D -> (i < nx P)%nat -> (j < ny P)%nat ->
  let k := (j * nx P + i)%nat in gridlike P (map (map f) D) /\ (k < length z)%nat /\ (k < length m)%nat /\
  cell None (map (map f) D) i j = f (nth k z 0 / nth k m 0).
Proof.
  intros E Hi Hj k. destruct (reshape_inv P _ D E) as (L & GL & C). rewrite zipw_length in L.
  assert (K : (k < nx P * ny P)%nat) by (unfold k; nia). split; [apply gridlike_map, GL|]. split; [lia|]. split; [lia|].
  rewrite (cell_map f P D 0 None i j GL Hi Hj), (C i j Hi Hj). fold k. rewrite (zipw_nth _ _ _ _ 0 0 0) by lia. reflexivity.
Qed.

(** The panels labelled [t] of a figure: there is one, and it shows [v i j] at the node in column [i] and row [j] when the
    node has mass. *)
Definition shows (P : gridp R) (m : list R) (Ds : list (title * list (list (option R)))) (t : title) (v : nat -> R) : Prop :=
  exists D, In (t, D) Ds /\ (forall D', In (t, D') Ds -> D' = D) /\
  forall i j, (i < nx P)%nat -> (j < ny P)%nat -> gridlike P D /\
    (nth (j * nx P + i) m 0 <> 0 -> cell None D i j = Some (v (j * nx P + i)%nat)).
Definition made_of (P : gridp R) (m : list R) (tz : title * list R) (tD : title * list (list (option R))) : Prop :=
  fst tD = fst tz /\ exists D0, reshape P (zipw ndiv (snd tz) m) = Ok D0 /\ snd tD = map (map Some) D0.

Lemma made_unique P m l Ds t D D' : Forall2 (made_of P m) l Ds -> NoDup (map fst l) -> In (t, D) Ds -> In (t, D') Ds -> D' = D.
Proof.
  intros H ND. assert (N2 : NoDup (map fst Ds)).
  { replace (map fst Ds) with (map fst l); [exact ND|]. clear ND. induction H as [|? ? ? ? [E _] _ IH]; [reflexivity|]. cbn. rewrite E, IH. reflexivity. }
  clear H ND. revert N2. induction Ds as [|[u E] Ds IH]; intros N2 H1 H2; [destruct H1|]. cbn in N2. apply NoDup_cons_iff in N2 as [N1 N2].
  assert (K : forall X, In (u, X) Ds -> False) by (intros X H; apply N1; apply (in_map fst) in H; exact H).
  destruct H1 as [H1|H1], H2 as [H2|H2].
  - congruence.
  - injection H1 as -> _. destruct (K _ H2).
  - injection H2 as -> _. destruct (K _ H1).
  - exact (IH N2 H1 H2).
Qed.
Lemma shows_made P m l Ds t z v : Forall2 (made_of P m) l Ds -> NoDup (map fst l) -> In (t, z) l ->
  (forall k, (k < length z)%nat -> (k < length m)%nat -> nth k m 0 <> 0 -> nth k z 0 / nth k m 0 = v k) -> shows P m Ds t v.
Proof.
  intros H ND HI HV. assert (K : exists D, In (t, D) Ds /\ made_of P m (t, z) (t, D)).
  { clear ND. induction H as [|a b l Ds M H IH]; [destruct HI|]. destruct HI as [->|HI].
    - exists (snd b). destruct b as [u D]. pose proof M as [E _]. cbn in E. subst u. split; [left; reflexivity|exact M].
    - destruct (IH HI) as (D & I & X). exists D. split; [right; exact I|exact X]. }
  destruct K as (D & I & (_ & D0 & E & ED)). cbn [fst snd] in *. exists D. split; [exact I|]. split; [intros D' I'; exact (made_unique P m l Ds t D D' H ND I I')|].
  intros i j Hi Hj. destruct (drawn_cell Some P z m D0 i j E Hi Hj) as (GL & L1 & L2 & C). rewrite <- ED in GL, C. split; [exact GL|].
  intros HM. rewrite C, (HV _ L1 L2 HM). reflexivity.
Qed.
Lemma mapM_made P m l Ds : mapM (fun tz => D <- panel P m (snd tz) ;; Ok (fst tz, D)) l = Ok Ds -> Forall2 (made_of P m) l Ds.
Proof.
  revert Ds. induction l as [|[t z] l IH]; intros Ds E; cbn [mapM] in E; [injection E as <-; constructor|].
  unfold panel in E at 1. cbn [fst snd] in E. destruct (reshape P (zipw ndiv z m)) as [D|] eqn:ED; [|discriminate]. cbn [bind] in E.
  destruct (mapM _ l) as [Ds'|] eqn:EM; [|discriminate]. injection E as <-. constructor; [|apply IH; reflexivity].
  split; [reflexivity|]. exists D. split; [exact ED|reflexivity].
Qed.
Lemma mapM_made_raw P m l l' Ds : l' = map (fun tz => (fst tz, zipw ndiv (snd tz) m)) l ->
  mapM (fun tz => D <- reshape P (snd tz) ;; Ok (fst tz, map (map (@Some R)) D)) l' = Ok Ds -> Forall2 (made_of P m) l Ds.
Proof.
  intros ->. revert Ds. induction l as [|[t z] l IH]; intros Ds E; cbn [mapM map] in E; [injection E as <-; constructor|].
  cbn [fst snd] in E. destruct (reshape P (zipw ndiv z m)) as [D|] eqn:ED; [|discriminate]. cbn [bind] in E.
  destruct (mapM _ _) as [Ds'|] eqn:EM; [|discriminate]. injection E as <-. constructor; [|apply IH; reflexivity].
  split; [reflexivity|]. exists D. split; [exact ED|reflexivity].
Qed.

(** What the panels are made of. *)
Definition contents (P : params R) (em : R) (f : family) (G : grid R) : list (title * list R) :=
  let mul := zipw Rmult in let div := zipw Rdiv in
  let rho := div (mul (gm G) (gm G)) (gV G) in let qx := map vx (gq G) in let qy := map vy (gq G) in let sb := mul (g_sbar G) (gm G) in
  match f with
  | FamRigid => []
  | FamViscous => [(TU, qx); (TV, qy); (TSbar, sb); (TRho, rho); (TRate, mul (map Rabs (f_gammadot G)) (gm G));
      (TGradX, mul (map vx (grad_gammadot P)) (gm G)); (TGradY, mul (map vy (grad_gammadot P)) (gm G))]
  | FamFlow => [(TRho, rho); (TSbar, sb); (TU, qx); (TV, qy); (TRate, mul (map Rabs (f_gammadot G)) (gm G)); (TPress, map Ropp (f_pressure G));
      (TShear, f_dev G); (TRatio, mul (map Rabs (div (f_dev G) (f_pressure G))) (gm G)); (TMu, f_mu G); (TEta, map (fun e => e / em) (f_eta G));
      (TPk, mul (g_pk G) (gm G)); (TI, f_I G); (TGradPk, mul (map vy (g_gradpk G)) (gm G));
      (TDphi, mul (map (fun r => last r 0 / p_dt P) (g_dphi G)) (gm G))]
  | FamDp => [(TRho, rho); (TSbar, sb); (TU, qx); (TV, qy); (TPress, f_pressure G); (TShear, f_dev G); (TRate, map Rabs (f_gammadot G));
      (TRatio, div (mul (gm G) (f_dev G)) (f_pressure G))]
  | FamOther => [(TRho, mul (gm G) (div (gm G) (gV G))); (TU, qx); (TV, qy); (TYield, f_yield G); (TSigV, f_sigmav G); (TSigH, f_sigmah G); (TRate, f_gammadot G);
      (TPress, map Ropp (f_pressure G)); (TShear, f_dev G); (TDevDot, f_devdot G)]
  end.
Lemma rho_raw (m V : list R) : zipw ndiv (zipw Rmult m (zipw Rdiv m V)) m = zipw Rdiv m V.
Proof.
  revert V. induction m as [|a m IH]; intros [|b V]; try reflexivity. cbn [zipw]. f_equal; [|apply IH].
  unR. destruct (Req_dec a 0) as [->|H]; [unfold Rdiv; rewrite !Rmult_0_l; reflexivity|]. unfold Rdiv. generalize (/ b). intros c. field. exact H.
Qed.
Lemma contents_nodup P em f G : NoDup (map fst (contents P em f G)).
Proof.
  destruct f; cbn [contents map fst]; repeat (constructor; [cbn [In]; let H := fresh in intros H; repeat (destruct H as [H|H]; [discriminate H|]); exact H|]); constructor.
Qed.
Lemma draw_made P So G Ds : draw_continuum P So G = Ok Ds ->
  exists em, (family_of (s_law So) = FamFlow -> s_eta_max So = Some em) /\ Forall2 (made_of (pG P) (gm G)) (contents P em (family_of (s_law So)) G) Ds.
Proof.
  intros E. unfold draw_continuum in E. destruct (family_of (s_law So)).
  - exists 0. injection E as <-. split; [discriminate|constructor].
  - exists 0. split; [discriminate|]. apply mapM_made in E. exact E.
  - destruct (s_eta_max So) as [em|]; [|discriminate]. cbn [attr bind] in E. exists em. split; [reflexivity|]. apply mapM_made in E. exact E.
  - exists 0. split; [discriminate|]. apply mapM_made in E. exact E.
  - exists 0. split; [discriminate|]. eapply mapM_made_raw; [|exact E]. cbn [contents map combine fst snd]. rewrite rho_raw. reflexivity.
Qed.

Ltac panel_in := cbn [contents In]; repeat (first [left; reflexivity | right]).
Ltac cells := intros k L1 L2 HM; rewrite ?zipw_length, ?map_length, ?zipw_length in L1;
  repeat first [rewrite (zipw_nth _ _ _ _ 0 0 0) by (rewrite ?zipw_length, ?map_length, ?zipw_length; lia)
               |rewrite nth_map_lt with (d := 0) by (rewrite ?zipw_length; lia)
               |rewrite nth_map_lt with (d := v0 (T := R)) by (rewrite ?repeat_length; lia)].

(** The panels [u], [v] and [rho] of every figure show the velocity (the numbers that [save_u] writes) and the density (the
    numbers that [save_density] writes) at every node with mass. *)
Lemma p_C119_motion : forall P So G Ds, s_law So <> Rigid -> draw_continuum P So G = Ok Ds ->
  shows (pG P) (gm G) Ds TU (fun k => vx (nth k (gq G) v0) / nth k (gm G) 0) /\
  shows (pG P) (gm G) Ds TV (fun k => vy (nth k (gq G) v0) / nth k (gm G) 0) /\
  shows (pG P) (gm G) Ds TRho (fun k => nth k (gm G) 0 / nth k (gV G) 0).
Proof.
  intros P So G Ds NR E. destruct (draw_made P So G Ds E) as (em & _ & H). pose proof (contents_nodup P em (family_of (s_law So)) G) as ND.
  assert (NF : family_of (s_law So) <> FamRigid).
  { destruct (s_law So); cbn; try discriminate; [congruence|]. destruct (_ || _)%bool; [discriminate|]. destruct (_ || _)%bool; discriminate. }
  set (f := family_of (s_law So)) in *. split; [|split].
  - apply (shows_made _ _ _ _ _ (map vx (gq G)) _ H ND); [destruct f; [congruence|panel_in..]|]. cells. reflexivity.
  - apply (shows_made _ _ _ _ _ (map vy (gq G)) _ H ND); [destruct f; [congruence|panel_in..]|]. cells. reflexivity.
  - destruct f; [congruence|..]; (eapply (shows_made _ _ _ _ _ _ _ H ND); [panel_in|]); cells; unfold Rdiv; generalize (/ nth k (gV G) 0); intros c; field; exact HM.
Qed.

(** The panel [|gammadot|]: the viscous laws and the flow laws show the size of the shear rate of the grid; dp and dp_rate
    show it divided by the nodal mass, and the other laws show the shear rate with its sign, divided by the nodal mass. *)
Lemma p_C119_rate : forall P So G Ds, draw_continuum P So G = Ok Ds ->
  let rate k := nth k (f_gammadot G) 0 in let m k := nth k (gm G) 0 in
  (s_law So = Viscous \/ s_law So = Bingham \/ s_law So = Pouliquen \/ s_law So = LinearMu ->
     shows (pG P) (gm G) Ds TRate (fun k => Rabs (rate k))) /\
  (s_law So = Dp \/ s_law So = DpRate -> shows (pG P) (gm G) Ds TRate (fun k => Rabs (rate k) / m k)) /\
  (s_law So = Elastic \/ s_law So = ElasticTime \/ s_law So = VonMises \/ s_law So = KenKamrin \/ s_law So = KenSimple ->
     shows (pG P) (gm G) Ds TRate (fun k => rate k / m k)).
Proof.
  intros P So G Ds E rate m. destruct (draw_made P So G Ds E) as (em & _ & H). pose proof (contents_nodup P em (family_of (s_law So)) G) as ND.
  split; [|split].
  - intros HL. assert (C : In (TRate, zipw Rmult (map Rabs (f_gammadot G)) (gm G)) (contents P em (family_of (s_law So)) G)).
    { destruct HL as [->|[->|[->| ->]]]; panel_in. }
    apply (shows_made _ _ _ _ _ _ _ H ND C). cells. unfold rate. field. exact HM.
  - intros HL. assert (C : In (TRate, map Rabs (f_gammadot G)) (contents P em (family_of (s_law So)) G)) by (destruct HL as [-> | ->]; panel_in).
    apply (shows_made _ _ _ _ _ _ _ H ND C). cells. reflexivity.
  - intros HL. assert (C : In (TRate, f_gammadot G) (contents P em (family_of (s_law So)) G)) by (destruct HL as [->|[->|[->|[->| ->]]]]; panel_in).
    apply (shows_made _ _ _ _ _ _ _ H ND C). cells. reflexivity.
Qed.

(** The panels of the stress: the fields divided by the nodal mass.  The flow laws and the other laws draw the pressure with
    its sign changed, dp and dp_rate do not; the ratio of shear stress to pressure is drawn without its sign for the flow
    laws and with it for dp and dp_rate. *)
Lemma p_C119_stress : forall P So G Ds, draw_continuum P So G = Ok Ds -> let f := family_of (s_law So) in
  let m k := nth k (gm G) 0 in let p k := nth k (f_pressure G) 0 / m k in let q k := nth k (f_dev G) 0 / m k in
  (f = FamFlow \/ f = FamOther -> shows (pG P) (gm G) Ds TPress (fun k => - p k) /\ shows (pG P) (gm G) Ds TShear q) /\
  (f = FamDp -> shows (pG P) (gm G) Ds TPress p /\ shows (pG P) (gm G) Ds TShear q /\ shows (pG P) (gm G) Ds TRatio (fun k => q k / p k)) /\
  (f = FamFlow -> shows (pG P) (gm G) Ds TRatio (fun k => Rabs (q k / p k))).
Proof.
  intros P So G Ds E f m p q. destruct (draw_made P So G Ds E) as (em & _ & H). fold f in H. pose proof (contents_nodup P em f G) as ND.
  assert (RA : forall a b c, c <> 0 -> (a / c) / (b / c) = a / b).
  { intros a b c Hc. destruct (Req_dec b 0) as [->|Hb]; [|field; auto]. unfold Rdiv. rewrite !Rmult_0_l, Rinv_0, !Rmult_0_r. reflexivity. }
  split; [|split].
  - intros HF. split.
    + assert (C : In (TPress, map Ropp (f_pressure G)) (contents P em f G)) by (destruct HF as [-> | ->]; panel_in).
      apply (shows_made _ _ _ _ _ _ _ H ND C). cells. unfold p, m. field. exact HM.
    + assert (C : In (TShear, f_dev G) (contents P em f G)) by (destruct HF as [-> | ->]; panel_in).
      apply (shows_made _ _ _ _ _ _ _ H ND C). cells. reflexivity.
  - intros HF. rewrite HF in *. split; [|split]; (eapply (shows_made _ _ _ _ _ _ _ H ND); [panel_in|]); cells; try reflexivity.
    unfold q, p, m. rewrite RA by exact HM. unfold Rdiv. generalize (/ nth k (f_pressure G) 0). intros c. field. exact HM.
  - intros HF. rewrite HF in *. (eapply (shows_made _ _ _ _ _ _ _ H ND); [panel_in|]); cells. unfold q, p, m. rewrite RA by exact HM.
    generalize (Rabs (nth k (f_dev G) 0 / nth k (f_pressure G) 0)). intros c. field. exact HM.
Qed.

(** The panels of the gradient of the shear rate, drawn for the viscous law, show zero everywhere: nothing computes the
    gradient. *)
Lemma p_C119_gradient : forall P So G Ds, s_law So = Viscous -> draw_continuum P So G = Ok Ds ->
  shows (pG P) (gm G) Ds TGradX (fun _ => 0) /\ shows (pG P) (gm G) Ds TGradY (fun _ => 0).
Proof.
  intros P So G Ds HL E. destruct (draw_made P So G Ds E) as (em & _ & H). rewrite HL in H. cbn [family_of] in H.
  pose proof (contents_nodup P em FamViscous G) as ND.
  assert (Z : forall k, nth k (grad_gammadot P) v0 = v0 (T := R)) by (intros k; unfold grad_gammadot; apply nth_repeat).
  split; (eapply (shows_made _ _ _ _ _ _ _ H ND); [panel_in|]); cells; unfold Rdiv;
    rewrite Z; cbn; unR; ring.
Qed.

(** A node without mass is not drawn, whatever the fields hold there: in the figures of the viscous laws, the flow laws and
    dp every panel leaves its cell blank.  This is with the infinities and NaN of floating point, over any numbers whose zero
    equals itself. *)
Lemma p_C119_blank : forall (T : Type) (N : Num T) (P : params (X T)) So (G : grid (X T)) Ds t D i j,
  neqb n0 n0 = true -> draw_continuum P So G = Ok Ds ->
  family_of (s_law So) <> FamOther -> In (t, D) Ds -> (i < nx (pG P))%nat -> (j < ny (pG P))%nat ->
  nth (j * nx (pG P) + i) (gm G) NaN = Fin n0 -> cell (Some NaN) D i j = None.
Proof.
  intros T N P So G Ds t D i j Z E NF HI Hi Hj HM.
  assert (K : exists z, panel (pG P) (gm G) z = Ok D).
  { assert (Q : forall l Ds', mapM (fun tz => D <- panel (pG P) (gm G) (snd tz) ;; Ok (fst tz, D)) l = Ok Ds' -> In (t, D) Ds' -> exists z, panel (pG P) (gm G) z = Ok D).
    { induction l as [|[u z] l IH]; intros Ds' E' I'; cbn [mapM] in E'; [injection E' as <-; destruct I'|].
      cbn [fst snd] in E'. destruct (panel (pG P) (gm G) z) as [D'|] eqn:EP; [|discriminate]. cbn [bind] in E'.
      destruct (mapM _ l) as [Ds2|] eqn:EM; [|discriminate]. injection E' as <-. destruct I' as [I'|I']; [injection I' as -> ->; eauto|]. exact (IH _ eq_refl I'). }
    unfold draw_continuum in E. destruct (family_of (s_law So)); [injection E as <-; destruct HI|exact (Q _ _ E HI)| |exact (Q _ _ E HI)|congruence].
    destruct (s_eta_max So); [|discriminate]. cbn [attr bind] in E. exact (Q _ _ E HI). }
  destruct K as (z & EP). unfold panel in EP. destruct (reshape (pG P) (zipw ndiv z (gm G))) as [D0|] eqn:ER; [|discriminate]. cbn [bind] in EP. injection EP as <-.
  assert (L : length (zipw ndiv z (gm G)) = (nx (pG P) * ny (pG P))%nat).
  { unfold reshape in ER. destruct (Nat.eqb_spec (length (zipw ndiv z (gm G))) (ny (pG P) * nx (pG P))) as [H|H]; [lia|discriminate]. }
  destruct (reshape_spec (pG P) _ NaN L) as (D' & E' & [GL GF] & C). rewrite ER in E'. injection E' as <-.
  unfold cell. rewrite (nth_indep _ [] (map visible [])) by (rewrite map_length, GL; exact Hj). rewrite map_nth.
  assert (RL : length (nth j D0 []) = nx (pG P)) by (rewrite Forall_forall in GF; apply GF, nth_In; rewrite GL; exact Hj).
  rewrite (nth_indep _ (Some NaN) (visible NaN)) by (rewrite map_length, RL; exact Hi). rewrite map_nth.
  specialize (C i j Hi Hj). unfold cell in C. rewrite C. rewrite zipw_length in L. rewrite (zipw_nth _ _ _ _ NaN NaN NaN) by nia. rewrite HM.
  generalize (nth (j * nx (pG P) + i) z NaN). intros [x| | |]; unfold visible; cbn [ndiv nfin Num_X xdiv]; [rewrite Z; unfold xinf_sign|..];
    repeat (match goal with |- context [if ?b then _ else _] => destruct b eqn:? end); cbn in *; congruence.
Qed.

(** ** C120: the wedges of [draw_gsd_mp] *)
(** The wedges drawn for a point fill its disc: they start at 0 and end at 360 degrees, each one starts where the one
    before ends, the angle of a wedge is the share of its size in the full turn, and its colour is that of its size. *)
Definition disc (P : gridp R) (p : particle R) (W : list (wedge (T := R))) : Prop :=
  let d := mkWedge 0 0 0 0 0 0 in
  length W = ns P /\ w1 (nth 0 W d) = 0 /\ w2 (nth (ns P - 1) W d) = 360 /\
  forall s, (s < ns P)%nat -> let w := nth s W d in
    wx w = vx (px p) /\ wy w = vy (px p) /\ wr w = 1 / 10 / INR (nx P) /\ wc w = nth s (gs P) 0 / nth (ns P - 1) (gs P) 0 /\
    w1 w <= w2 w /\ w2 w - w1 w = 360 * nth s (pphi p) 0 /\ ((S s < ns P)%nat -> w1 (nth (S s) W d) = w2 w).

Lemma wedges_spec p w smax : forall fs ss a d, length ss = length fs -> let W := wedges p w smax a ss fs in
  length W = length fs /\ forall s, (s < length fs)%nat -> nth s W d =
    mkWedge (vx (px p)) (vy (px p)) w ((a + Rsum (firstn s fs)) * 360) ((a + Rsum (firstn (S s) fs)) * 360) (nth s ss 0 / smax).
Proof.
  induction fs as [|f fs IH]; intros [|s0 ss] a d HL; try discriminate HL; cbn [wedges]; [split; [reflexivity|intros s H; cbn in H; lia]|].
  injection HL as HL. destruct (IH ss (a + f) d HL) as [L C]. cbv zeta in *. unR. split; [cbn [length]; rewrite L; reflexivity|].
  intros [|s] H; cbn [nth firstn Rsum fold_right].
  - f_equal; ring.
  - cbn [length] in H. rewrite C by lia. unfold Rsum. cbn [firstn fold_right]. f_equal; ring.
Qed.
Lemma last_nth {A} (l : list A) d : last l d = nth (length l - 1) l d.
Proof. induction l as [|a [|b l] IH]; [reflexivity|reflexivity|]. change (last (a :: b :: l) d) with (last (b :: l) d). rewrite IH. cbn [length nth]. replace (S (length l) - 0)%nat with (S (length l)) by lia. cbn. rewrite Nat.sub_0_r. reflexivity. Qed.
Lemma Rsum_firstn_S (l : list R) : forall s, (s < length l)%nat -> Rsum (firstn (S s) l) = Rsum (firstn s l) + nth s l 0.
Proof.
  induction l as [|a l IH]; intros s H; [cbn in H; lia|]. destruct s; [cbn; unfold Rsum; cbn; ring|].
  change (firstn (S (S s)) (a :: l)) with (a :: firstn (S s) l). change (firstn (S s) (a :: l)) with (a :: firstn s l). unfold Rsum in *. cbn [fold_right nth]. cbn in H.
  rewrite IH by lia. ring.
Qed.

Lemma p_C120_wedges : forall P (L : list (phase R)), length (gs P) = ns P -> all_live L (fun _ p => fractions (ns P) (pphi p)) ->
  Forall2 (fun ph pic => Forall2 (disc P) (live ph) pic) L (draw_gsd_mp P L).
Proof.
  intros P L HS HF. unfold draw_gsd_mp. set (w := ((n1 / nofZ 10) / nofZ (Z.of_nat (nx P)))%num).
  assert (K : forall ph, In ph L -> Forall2 (disc P) (live ph) (map (fun p => wedges p w (last (gs P) n0) n0 (gs P) (pphi p)) (firstn (ph_n ph) (ph_pts ph)))).
  { intros ph Hph. change (firstn (ph_n ph) (ph_pts ph)) with (live ph). specialize (HF ph). induction (live ph) as [|p ps IH]; [constructor|].
    cbn [map]. constructor; [|apply IH; intros q A B; apply HF; [exact A|right; exact B]].
    destruct (HF p Hph (or_introl eq_refl)) as (HL & HN & H1). clear IH HF.
    assert (N0 : (0 < ns P)%nat). { destruct (ns P) as [|n]; [|lia]. destruct (pphi p); [|discriminate]. unfold Rsum in H1. cbn in H1. lra. }
    unfold disc. cbv zeta. set (d := mkWedge 0 0 0 0 0 0).
    destruct (wedges_spec p w (last (gs P) n0) (pphi p) (gs P) n0 d ltac:(congruence)) as [LW CW]. cbv zeta in *. set (W := wedges _ _ _ _ _ _) in *.
    rewrite HL in *. split; [exact LW|]. split; [rewrite CW by exact N0; cbn; unR; ring|].
    split. { rewrite CW by lia. cbn [w2]. replace (S (ns P - 1)) with (length (pphi p)) by lia. rewrite firstn_all, H1. unR. ring. }
    intros s Hs. rewrite CW by exact Hs. cbn [wx wy wr w1 w2 wc]. rewrite Rsum_firstn_S by lia.
    assert (NS : 0 <= nth s (pphi p) 0) by (rewrite Forall_forall in HN; apply HN, nth_In; lia).
    split; [reflexivity|]. split; [reflexivity|]. split. { unfold w. unR. rewrite <- INR_IZR_INZ. lra. }
    split. { rewrite last_nth, HS. reflexivity. }
    unR. split; [lra|]. split; [lra|]. intros H2. rewrite CW by exact H2. cbn [w1]. rewrite Rsum_firstn_S by lia. reflexivity. }
  clear HF. induction L as [|ph L IH]; [constructor|]. cbn [map]. constructor; [apply K; left; reflexivity|apply IH; intros q H; apply K; right; exact H].
Qed.
Example x_C120_wedges : length (gs (ex_gridp (T := R))) = ns (ex_gridp (T := R)) /\ all_live (ex_L Elastic) (fun _ p => fractions (ns (ex_gridp (T := R))) (pphi p)) /\
  exists ph p, In ph (ex_L (T := R) Elastic) /\ In p (live ph).
Proof.
  split; [reflexivity|]. split.
  - intros ph p [<-|[]] H. cbn in H. destruct H as [<-|[<-|[]]]; (split; [reflexivity|]; split; [repeat constructor; cbn; unR; lra|unfold Rsum; cbn; unR; lra]).
  - eexists. eexists. split; [left; reflexivity|]. left. reflexivity.
Qed.
