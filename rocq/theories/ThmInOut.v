(** * Gravity, outlets, inlets, cyclic wrapping, independent velocities: C29-C32, C35. *)
From Coq Require Import ZArith Reals List Bool Arith Lra Lia.
From Verif Require Import State NumR Spec LibList LibR ModelGrid ModelConstit ModelParticle ModelMPList
  ProofsGrid ProofsMap ProofsP2G ProofsInOut Concrete ThmMapping.
Import ListNotations.
Local Open Scope R_scope.

(** ** C29 *)
(** After [update_forces] every particle of the first phase feels the current
    gravity, turned by the current angle. *)
Lemma p_C29_first_phase : forall P L L' ph' p', update_forces P L = Ok L' ->
  nth_error L' 0 = Some ph' -> In p' (live ph') ->
  let g := ld_g (p_loads P) in let th := ld_theta (p_loads P) in
  pb p' = mkV3 (g * sin th) (g * cos th) 0 /\ sq3 (pb p') = g * g.
Proof.
  intros P L L' ph' p' E N Hp g th.
  unfold update_forces, points_ in E. pbinds E. injection E as <-.
  destruct L as [|ph L]; [cbn in E0; injection E0 as <- _; discriminate|].
  unfold points in E0. destruct (forM_nth _ _ _ _ _ _ 0 ph E0 eq_refl) as (a' & s1 & s2 & N' & F).
  rewrite N in N'. injection N' as <-. pbinds F. injection F as <- <-.
  assert (PB : pb p' = mkV3 (g * sin th) (g * cos th) 0).
  { eapply (each_live _ (fun _ => True) (fun _ q => pb q = mkV3 (g * sin th) (g * cos th) 0)) in E; [|exact I|].
    - destruct E as (_ & FF & _). unfold live in Hp. cbn [ph_n ph_pts set] in Hp.
      change (In p' (firstn (ph_n ph) b1)) in Hp.
      clear - FF Hp. induction FF; [contradiction|]. destruct Hp as [<-|Hp]; auto.
    - intros a s a' s' _ _ Ef. cbn in Ef. injection Ef as <- _. split; [exact I|reflexivity]. }
  split; [exact PB|]. rewrite PB. unfold sq3. cbn [vx vy vz].
  pose proof (sin2_cos2 th) as SC. unfold Rsqr in SC.
  replace (g * sin th * (g * sin th) + g * cos th * (g * cos th) + 0 * 0)
    with (g * g * (sin th * sin th + cos th * cos th)) by ring.
  rewrite SC. ring.
Qed.

(** Later phases keep the body force they had, whatever the current gravity. *)
Lemma p_C29_later_phases_refuted :
  (forall P L L' k ph ph', update_forces P L = Ok L' -> (1 <= k)%nat ->
     nth_error L k = Some ph -> nth_error L' k = Some ph' -> ph' = ph) /\
  exists (P : params R) L L' ph' p', update_forces P L = Ok L' /\ nth_error L' 1 = Some ph' /\
    In p' (live ph') /\ ld_g (p_loads P) = 1 /\ pb p' = v0.
Proof.
  split.
  - intros P L L' k ph ph' E Hk N N'. unfold update_forces, points_ in E. pbinds E. injection E as <-.
    unfold points in E0. destruct (forM_nth _ _ _ _ _ _ k ph E0 N) as (a' & s1 & s2 & M & F).
    rewrite N' in M. injection M as <-. pbinds F. injection F as <- <-.
    eapply (each_live _ (fun _ => True) (fun p q => q = p)) in E; [|exact I|].
    2:{ intros a s a1 s' _ _ Ef. unfold increment_gravity in Ef.
        destruct (Nat.eqb_spec (0 + k) 0); [lia|]. cbn in Ef. injection Ef as <- _. auto. }
    destruct E as (_ & FF & Ln & Sk).
    assert (Q : b1 = ph_pts ph).
    { rewrite <- (firstn_skipn (ph_n ph) b1), <- (firstn_skipn (ph_n ph) (ph_pts ph)), Sk. f_equal.
      clear - FF. induction FF; congruence. }
    rewrite Q. destruct ph; reflexivity.
  - exists (ex_params ex_bounds <| p_loads := mkLoads 1 0 0 0 |>),
      [mkPhase (ex_solid Elastic) 0 v0 []; mkPhase (ex_solid Elastic) 1 v0 [ex_p1 <| pb := v0 |>]].
    eexists. eexists. eexists. split; [reflexivity|]. split; [reflexivity|].
    split; [left; reflexivity|]. split; reflexivity.
Qed.

(** With loads that never change, a particle starts with the right body force. *)
Lemma p_C29_initial : forall P S0 S x y phi p, particle_init P S0 S x y phi = Ok p ->
  pb p = mkV3 (ld_g (p_loads P) * sin (ld_theta (p_loads P))) (ld_g (p_loads P) * cos (ld_theta (p_loads P))) 0.
Proof. intros P S0 S x y phi p E. unfold particle_init in E. pbinds E. injection E as <-. reflexivity. Qed.

Example x_C29_first_phase : exists P L' ph' p', update_forces P (ex_L (T := R) Elastic) = Ok L' /\
  nth_error L' 0 = Some ph' /\ In p' (live ph').
Proof.
  exists (ex_params ex_bounds). eexists. eexists. eexists. split; [reflexivity|].
  split; [reflexivity|]. left. reflexivity.
Qed.

(** ** C30 *)
Definition counted {T} (L : list (phase T)) : Prop := forall ph, In ph L -> ph_n ph = length (ph_pts ph).

Lemma outlet_spec (out : particle R -> bool) outr (L : list (phase R)) :
  (forall p, outr p = Ok (out p)) -> counted L ->
  exists L', phases_ (delete_where outr) L = Ok L' /\
    Forall2 (fun ph ph' => ph_pts ph' = filter (fun p => negb (out p)) (ph_pts ph) /\
                           ph_n ph' = length (ph_pts ph') /\ ph_sol ph' = ph_sol ph /\ ph_sv ph' = ph_sv ph) L L'.
Proof.
  intros HO HC. exists (map (fun ph => ph <| ph_pts := filter (fun p => negb (out p)) (ph_pts ph) |>
    <| ph_n := length (filter (fun p => negb (out p)) (ph_pts ph)) |>) L).
  split.
  - apply phases_ok. induction L as [|ph L IH]; constructor.
    + apply delete_where_ok; [auto|]. apply HC. left. reflexivity.
    + apply IH. intros q Hq. apply HC. right. auto.
  - clear. induction L as [|ph L IH]; constructor; [|exact IH]. destruct ph; cbn; auto.
Qed.

(** Exactly the particles below the floor are removed; the others stay, unchanged
    and in order, and the counter follows. *)
Lemma p_C30_outlet_bottom : forall P (L : list (phase R)), counted L ->
  exists L', outlet_bottom_f P L = Ok L' /\
    Forall2 (fun ph ph' =>
      ph_pts ph' = filter (fun p => if Rlt_dec (vy (px p)) (y_m (pG P)) then false else true) (ph_pts ph) /\
      ph_n ph' = length (ph_pts ph') /\ ph_sol ph' = ph_sol ph /\ ph_sv ph' = ph_sv ph) L L'.
Proof.
  intros P L HC. destruct (outlet_spec (fun p => Rltb (vy (px p)) (y_m (pG P)))
    (fun p => Ok (vy (px p) <? y_m (pG P))%num) L) as (L' & E & F); [reflexivity|exact HC|].
  exists L'. split; [exact E|]. clear - F. induction F as [|ph ph' L L' (A & B & C & D) F IH]; constructor; [|exact IH].
  split; [|auto]. rewrite A. apply filter_ext. intros p. unfold Rltb. destruct (Rlt_dec _ _); reflexivity.
Qed.

(** The left outlet removes the particles left of [x_m + dx], one cell too many. *)
Lemma p_C30_outlet_left_partial : forall P (L : list (phase R)) dx, counted L -> pdx (pG P) = Some dx ->
  exists L', outlet_left_f P L = Ok L' /\
    Forall2 (fun ph ph' =>
      ph_pts ph' = filter (fun p => if Rlt_dec (vx (px p)) (x_m (pG P) + dx) then false else true) (ph_pts ph) /\
      ph_n ph' = length (ph_pts ph') /\ ph_sol ph' = ph_sol ph /\ ph_sv ph' = ph_sv ph) L L'.
Proof.
  intros P L dx HC HD. destruct (outlet_spec (fun p => Rltb (vx (px p)) (x_m (pG P) + dx))
    (fun p => dx <- attr (pdx (pG P)) ;; Ok (vx (px p) <? x_m (pG P) + dx)%num) L) as (L' & E & F).
  - intros p. rewrite HD. reflexivity.
  - exact HC.
  - exists L'. split; [exact E|]. clear - F. induction F as [|ph ph' L L' (A & B & C & D) F IH]; constructor; [|exact IH].
    split; [|auto]. rewrite A. apply filter_ext. intros p. unfold Rltb. destruct (Rlt_dec _ _); reflexivity.
Qed.

(** So particles well inside the domain are deleted: any particle in the first
    column of cells is. *)
Lemma p_C30_outlet_left_refuted :
  (forall P dx (ph : phase R) p L', pdx (pG P) = Some dx -> ph_n ph = length (ph_pts ph) -> In p (ph_pts ph) ->
     x_m (pG P) <= vx (px p) < x_m (pG P) + dx -> outlet_left_f P [ph] = Ok L' ->
     exists ph', L' = [ph'] /\ ~ In p (ph_pts ph')) /\
  exists P dx (p : particle R), pdx (pG P) = Some dx /\ inside (pG P) (px p) /\
     x_m (pG P) <= vx (px p) < x_m (pG P) + dx /\
     outlet_left_f P [mkPhase (ex_solid Elastic) 1 v0 [p]] = Ok [mkPhase (ex_solid Elastic) 0 v0 []].
Proof.
  assert (C : forall P dx (ph : phase R) p L', pdx (pG P) = Some dx -> ph_n ph = length (ph_pts ph) -> In p (ph_pts ph) ->
     x_m (pG P) <= vx (px p) < x_m (pG P) + dx -> outlet_left_f P [ph] = Ok L' ->
     exists ph', L' = [ph'] /\ ~ In p (ph_pts ph')).
  { intros P dx ph p L' HD HN Hp Hx E.
    destruct (p_C30_outlet_left_partial P [ph] dx) as (L2 & E2 & F); [intros q [<-|[]]; exact HN|exact HD|].
    rewrite E in E2. injection E2 as <-. inversion F as [|a b l l' (A & _) F0]; subst. inversion F0; subst.
    exists b. split; [reflexivity|]. rewrite A. intros Q. apply filter_In in Q. destruct Q as [_ Q].
    destruct (Rlt_dec _ _); [discriminate|lra]. }
  split; [exact C|].
  pose (P := ex_params (T := R) ex_bounds <| pG := ex_gridp <| pdx := Some 1 |> |>).
  exists P, 1, ex_p1. split; [reflexivity|].
  assert (X : vx (px (ex_p1 (T := R))) = 1 / 2 /\ x_m (pG P) = 0)
    by (split; cbn; unfold nhalf, lit; cbn; lra).
  split; [|split].
  - unfold inside, P, nhalf, lit. cbn. unfold nhalf, lit. cbn. lra.
  - destruct X as [-> ->]. lra.
  - destruct (p_C30_outlet_left_partial P [mkPhase (ex_solid Elastic) 1 v0 [ex_p1]] 1) as (L2 & E2 & F);
      [intros q [<-|[]]; reflexivity|reflexivity|].
    rewrite E2. f_equal. inversion F as [|a b l l' (A & B & B1 & B2) F0]; subst. inversion F0; subst. f_equal.
    cbn [ph_pts filter] in A. destruct X as [X1 X2]. rewrite X1, X2 in A.
    destruct (Rlt_dec _ _); [|lra]. destruct b as [b1 b2 b3 b4]. cbn in *. subst. reflexivity.
Qed.

Example x_C30_outlet_bottom : counted (ex_L (T := R) Elastic) /\
  exists p : particle R, In p (ph_pts (ex_phase Elastic)).
Proof. split; [intros ph [<-|[]]; reflexivity|]. exists ex_p1. left. reflexivity. Qed.

(** ** C31 *)
(** A particle just created at [(x,y)] for a phase: there, with the phase's
    density and area. *)
Definition fresh_at (P : gridp R) (S : solid R) (x y : R) (p : particle R) : Prop :=
  px p = mkV3 x y 0 /\ pV p = s_A S * thickness P /\ pm p = s_rho S * (s_A S * thickness P) /\ pphi p = s_phi S.

Lemma init_fresh P S0 S x y p : particle_init P S0 S x y (s_phi S) = Ok p -> fresh_at (pG P) S x y p.
Proof. intros E. unfold particle_init in E. pbinds E. injection E as <-. repeat split. Qed.

(** What an inlet does to a phase: the points [xys] are appended, or nothing. *)
Definition appended (P : gridp R) (xys : list (R * R)) (ph ph' : phase R) : Prop :=
  exists new, Forall2 (fun xy p => fresh_at P (ph_sol ph) (fst xy) (snd xy) p) xys new /\
    ph' = mkPhase (ph_sol ph) (ph_n ph + length xys) (ph_sv ph) (ph_pts ph ++ new).

Lemma appended_nil P (ph : phase R) : appended P [] ph ph.
Proof. exists []. split; [constructor|]. destruct ph. cbn. rewrite app_nil_r, Nat.add_0_r. reflexivity. Qed.

Lemma foldM_gap P S0 S gap : s_gap S = Some gap -> forall ys ph ph', ph_sol ph = S ->
  foldM (fun ph y => gap <- attr (s_gap (ph_sol ph)) ;; add_point P S0 (x_M (pG P) - fst gap)%num y ph) ph ys = Ok ph' ->
  exists new, Forall2 (fun y p => particle_init P S0 S (x_M (pG P) - fst gap) y (s_phi S) = Ok p) ys new /\
    ph' = mkPhase S (ph_n ph + length ys) (ph_sv ph) (ph_pts ph ++ new).
Proof.
  intros EG. induction ys as [|y ys IH]; intros ph ph' ES E; cbn [foldM] in E.
  - injection E as <-. exists []. split; [constructor|]. destruct ph. cbn in *. subst. rewrite app_nil_r, Nat.add_0_r. reflexivity.
  - rewrite ES, EG in E. cbn [attr bind] in E. pbinds E. unfold add_point in E0. pbinds E0. injection E0 as <-.
    rewrite ES in E1. pose proof (fun Q => IH _ _ Q E) as IH2. destruct (IH2 ES) as (new & F & ->). exists (a0 :: new). split; [constructor; assumption|].
    destruct ph. cbn in *. rewrite <- app_assoc. cbn. f_equal. lia.
Qed.

(** The right inlet, when due, appends one particle per row position at distance
    [gap] from the right wall. *)
Lemma p_C31_inlet_right : forall P L L', inlet_right_f P L = Ok L' ->
  Forall2 (fun ph ph' => exists due, inlet_due P (ph_sol ph) = Ok due /\
    if due then (s_yp (ph_sol ph) <> [] -> exists gap, s_gap (ph_sol ph) = Some gap /\
      appended (pG P) (map (fun y => (x_M (pG P) - fst gap, y)) (s_yp (ph_sol ph))) ph ph')
    else ph' = ph) L L'.
Proof.
  intros P L L' E. unfold inlet_right_f in E. pbinds E. clear E0. apply (proj1 (phases_ok _ _ _)) in E.
  induction E as [|ph ph' L L' EP F IH]; constructor; [|exact IH]. clear IH F.
  pbinds EP. exists a0. split; [assumption|]. destruct a0; [|injection EP as <-; reflexivity].
  intros HY. destruct (s_gap (ph_sol ph)) as [gap|] eqn:EG.
  2:{ destruct (s_yp (ph_sol ph)); [congruence|]. cbn in EP. rewrite EG in EP. discriminate. }
  exists gap. split; [reflexivity|].
  destruct (foldM_gap P a (ph_sol ph) gap EG (s_yp (ph_sol ph)) ph ph' eq_refl EP) as (new & FN & ->).
  exists new. split.
  - clear - FN. induction FN; cbn; constructor; auto. apply (init_fresh _ _ _ _ _ _ H).
  - rewrite map_length. reflexivity.
Qed.

(** When nothing is due or there are no rows, nothing changes. *)
Lemma p_C31_inlet_right_none : forall P L L', inlet_right_f P L = Ok L' ->
  Forall2 (fun ph ph' => s_yp (ph_sol ph) = [] \/ inlet_due P (ph_sol ph) = Ok false -> ph' = ph) L L'.
Proof.
  intros P L L' E. unfold inlet_right_f in E. pbinds E. clear E0. apply (proj1 (phases_ok _ _ _)) in E.
  induction E as [|ph ph' L L' EP F IH]; constructor; [|exact IH]. clear IH F.
  intros HN. pbinds EP. destruct a0.
  - destruct HN as [HN|HN]; [rewrite HN in EP; cbn in EP; injection EP as <-; reflexivity|congruence].
  - injection EP as <-. reflexivity.
Qed.

Lemma p_C31_inlet_top : forall P L L', inlet_top_f P L = Ok L' ->
  Forall2 (fun ph ph' => exists due, inlet_due P (ph_sol ph) = Ok due /\
    if due then exists gap, s_gap (ph_sol ph) = Some gap /\
      appended (pG P) [((x_M (pG P) - x_m (pG P)) / 2, y_M (pG P) - snd gap)] ph ph'
    else ph' = ph) L L'.
Proof.
  intros P L L' E. unfold inlet_top_f in E. pbinds E. clear E0. apply (proj1 (phases_ok _ _ _)) in E.
  induction E as [|ph ph' L L' EP F IH]; constructor; [|exact IH]. clear IH F.
  pbinds EP. exists a0. split; [assumption|]. destruct a0; [|injection EP as <-; reflexivity].
  destruct (s_gap (ph_sol ph)) as [gap|] eqn:EG; [|discriminate]. cbn [attr bind] in EP. exists gap.
  split; [reflexivity|]. unfold add_point in EP. apply bind_ok in EP. destruct EP as (q & E1 & EP).
  injection EP as <-. exists [q]. split.
  - constructor; [|constructor]. apply (init_fresh _ _ _ _ _ _ E1).
  - destruct ph; reflexivity.
Qed.

(** The point of the top inlet is the middle of the domain only if [x_m = 0];
    with [x_M < 3 x_m] it is not even in the domain. *)
Lemma p_C31_inlet_top_middle_refuted : forall P : gridp R, proper P ->
  ((x_M P - x_m P) / 2 = (x_m P + x_M P) / 2 <-> x_m P = 0) /\
  (x_M P < 3 * x_m P -> (x_M P - x_m P) / 2 < x_m P).
Proof. intros P (_ & _ & HX & _). split; [split|]; intros; lra. Qed.

(** ** The schedule of [t % rate < dt] in a run with constant [dt] *)
Lemma first_step a dt : 0 <= a -> 0 < dt -> exists k : nat, a <= INR k * dt < a + dt.
Proof.
  intros Ha Hd. pose proof (Rfloor_bounds (a / dt)) as [F1 F2].
  assert (F0 : (0 <= Rfloor (a / dt))%Z).
  { apply Z.lt_succ_r. apply lt_IZR. rewrite succ_IZR. apply Rle_lt_trans with (a / dt); [|lra].
    apply Rmult_le_pos; [auto|]. left. apply Rinv_0_lt_compat. auto. }
  set (f := Rfloor (a / dt)) in *.
  assert (A : a = a / dt * dt) by (field; lra).
  assert (N : INR (Z.to_nat f) = IZR f) by (rewrite INR_IZR_INZ, Z2Nat.id by auto; reflexivity).
  destruct (Req_dec (IZR f) (a / dt)) as [Q|Q].
  - exists (Z.to_nat f). rewrite N, Q, <- A. lra.
  - exists (Datatypes.S (Z.to_nat f)). rewrite S_INR, N.
    assert (IZR f * dt < a) by (rewrite A; apply Rmult_lt_compat_r; lra).
    assert (a < (IZR f + 1) * dt) by (rewrite A at 1; apply Rmult_lt_compat_r; lra). lra.
Qed.
Lemma same_step a dt (k l : nat) : 0 < dt -> a <= INR k * dt < a + dt -> a <= INR l * dt < a + dt -> k = l.
Proof.
  intros Hd H1 H2.
  assert (X : forall i j : nat, (i < j)%nat -> INR i * dt + dt <= INR j * dt).
  { intros i j H. apply le_INR in H. rewrite S_INR in H. nra. }
  destruct (Nat.lt_trichotomy k l) as [L|[L|L]]; [apply X in L; lra|auto|apply X in L; lra].
Qed.
Lemma Rmod_interval t rate j : 0 < rate -> INR j * rate <= t < (INR j + 1) * rate ->
  Rmod t rate = Ok (t - INR j * rate).
Proof.
  intros Hr Ht. unfold Rmod. destruct (Req_EM_T rate 0); [lra|].
  rewrite (Rfloor_spec (t / rate) (Z.of_nat j)).
  - rewrite <- INR_IZR_INZ. f_equal. ring.
  - rewrite <- INR_IZR_INZ. split.
    + apply Rmult_le_reg_r with rate; [auto|]. replace (t / rate * rate) with t by (field; lra). lra.
    + apply Rmult_lt_reg_r with rate; [auto|]. replace (t / rate * rate) with t by (field; lra). lra.
Qed.

(** In a run with constant [dt <= rate], starting at [t = 0]: nothing enters
    during the first interval, in particular not at [t=0], and in every later
    interval [[j rate, (j+1) rate)] exactly one step lets points in. *)
Lemma p_C31_schedule : forall (P : params R) S rate dt, s_inlet_rate S = Some rate -> 0 < dt <= rate ->
  let due k := inlet_due (P <| p_t := INR k * dt |> <| p_dt := dt |>) S in
  (forall k, INR k * dt < rate -> due k = Ok false) /\
  (forall j, (1 <= j)%nat -> exists! k, INR j * rate <= INR k * dt < (INR j + 1) * rate /\ due k = Ok true).
Proof.
  intros P S rate dt HR Hdt due.
  assert (D : forall j k, INR j * rate <= INR k * dt < (INR j + 1) * rate ->
    due k = Ok (andb (Rltb (INR k * dt - INR j * rate) dt) (negb (Reqb (INR k * dt) 0)))).
  { intros j k Hk. unfold due, inlet_due. rewrite HR. cbn [attr bind]. cbn [p_t p_dt set].
    change (nmod (INR k * dt) rate) with (Rmod (INR k * dt) rate).
    rewrite (Rmod_interval _ _ j) by lra. reflexivity. }
  split.
  - intros k Hk. assert (0 <= INR k) by apply pos_INR.
    rewrite (D 0%nat) by (cbn [INR]; nra). destruct k as [|k].
    + replace (Reqb (INR 0 * dt) 0) with true; [rewrite andb_comm; reflexivity|].
      symmetry. apply Reqb_true. cbn. ring.
    + rewrite (proj2 (Rltb_false _ _)); [reflexivity|]. rewrite S_INR. cbn [INR]. pose proof (pos_INR k). nra.
  - intros j Hj.
    assert (J1 : 1 <= INR j) by (change 1 with (INR 1); apply le_INR; auto).
    destruct (first_step (INR j * rate) dt) as [k Hk]; [nra|lra|].
    exists k. split.
    + assert (R1 : INR j * rate <= INR k * dt < (INR j + 1) * rate) by nra.
      split; [exact R1|]. rewrite (D j k R1).
      rewrite (proj2 (Rltb_true _ _)) by lra. rewrite (proj2 (Reqb_false _ _)); [reflexivity|]. nra.
    + intros l [R1 El]. rewrite (D j l R1) in El. injection El as El. apply andb_true_iff in El. destruct El as [El _].
      apply Rltb_true in El. apply (same_step (INR j * rate) dt); lra.
Qed.

Example x_C31_inlet_right : exists P L L' ph ph', inlet_right_f (T := R) P L = Ok L' /\ In ph L /\ In ph' L' /\
  inlet_due P (ph_sol ph) = Ok true /\ (length (ph_pts ph) < length (ph_pts ph'))%nat.
Proof.
  pose (P := ex_params (T := R) ex_bounds <| p_t := 1 |>).
  assert (D : inlet_due P (ex_solid Elastic) = Ok true).
  { unfold inlet_due. cbn [ex_solid s_inlet_rate attr bind].
    change (nmod (p_t P) n1) with (Rmod 1 1). rewrite (Rmod_interval 1 1 1) by (cbn; lra). cbn [bind].
    f_equal. apply andb_true_iff. split; [apply Rltb_true|apply negb_true_iff, Reqb_false]; cbn; unfold lit; cbn; lra. }
  assert (HP : p_pressure P = PNone /\ p_flow P = FNone) by (split; reflexivity). clearbody P.
  exists P, [mkPhase (ex_solid Elastic) 0 v0 []].
  unfold inlet_right_f. cbn [sol0 bind ph_sol]. unfold phases_. cbn [forM ph_sol]. rewrite D. cbn [bind].
  cbn [ex_solid s_yp s_gap foldM attr bind ph_sol]. unfold add_point, particle_init, init_state, init_flow.
  destruct HP as [-> ->]. cbn [bind]. eexists. eexists. eexists.
  split; [reflexivity|]. split; [left; reflexivity|]. split; [left; reflexivity|]. split; [exact D|]. cbn. lia.
Qed.

(** ** C32 *)
(** A particle at most one width away comes back: moved by [-1], [0] or [1] widths
    into [[x_m,x_M]], untouched if it was there, everything else unchanged;
    wrapping again does nothing. *)
Lemma p_C32_wrap : forall (P : gridp R) p, proper P ->
  let w := x_M P - x_m P in
  x_m P - w <= vx (px p) <= x_M P + w ->
  let p' := wrap P p in
  x_m P <= vx (px p') <= x_M P /\
  (exists k : Z, vx (px p') = vx (px p) + IZR k * w) /\
  (x_m P <= vx (px p) <= x_M P -> p' = p) /\
  p' = p <| px := mkV3 (vx (px p')) (vy (px p)) (vz (px p)) |> /\
  wrap P p' = p'.
Proof.
  intros P p (_ & _ & HX & _) w Hx p'.
  assert (ID : forall q : particle R, x_m P <= vx (px q) <= x_M P -> wrap P q = q).
  { intros q Hq. unfold wrap. cbn [nltb Num_R].
    destruct (Rltb (vx (px q)) (x_m P)) eqn:A; [apply Rltb_true in A; lra|].
    destruct (Rltb (x_M P) (vx (px q))) eqn:B; [apply Rltb_true in B; lra|]. reflexivity. }
  assert (C : p' = p \/ exists e, (e = w \/ e = - w) /\ p' = p <| px := mkV3 (vx (px p) + e) (vy (px p)) (vz (px p)) |> /\
     x_m P <= vx (px p) + e <= x_M P).
  { unfold p', wrap. cbn [nltb Num_R]. destruct (Rltb (vx (px p)) (x_m P)) eqn:A.
    - apply Rltb_true in A. right. exists w. split; [auto|].
      unfold w in *. cbn [px set setx vx nadd nsub Num_R].
      destruct (Rltb (x_M P) _) eqn:B; [apply Rltb_true in B; cbn in B; lra|]. split; [reflexivity|lra].
    - apply Rltb_false in A. destruct (Rltb (x_M P) (vx (px p))) eqn:B; [|left; reflexivity].
      apply Rltb_true in B. right. exists (- w). split; [auto|]. unfold w in *. split; [|lra].
      reflexivity. }
  assert (IN : x_m P <= vx (px p') <= x_M P).
  { destruct C as [C|(e & He & C & R1)].
    - rewrite C. unfold p', wrap in C. cbn [nltb Num_R] in C.
      destruct (Rltb (vx (px p)) (x_m P)) eqn:A.
      + exfalso. apply Rltb_true in A. apply (f_equal (fun q => vx (px q))) in C.
        cbn [px set setx vx nadd nsub Num_R] in C.
        destruct (Rltb (x_M P) _) eqn:B; [apply Rltb_true in B|]; cbn in B, C; lra.
      + apply Rltb_false in A. destruct (Rltb (x_M P) (vx (px p))) eqn:B.
        * exfalso. apply Rltb_true in B. apply (f_equal (fun q => vx (px q))) in C. cbn in C. lra.
        * apply Rltb_false in B. lra.
    - rewrite C. cbn. lra. }
  split; [exact IN|]. split; [|split; [apply ID|split; [|apply ID; exact IN]]].
  - destruct C as [->|(e & [->| ->] & -> & _)].
    + exists 0%Z. ring.
    + exists 1%Z. cbn. ring.
    + exists (-1)%Z. cbn. ring.
  - destruct C as [->|(e & He & -> & _)].
    + destruct p as [[? ? ?]]; reflexivity.
    + reflexivity.
Qed.

(** The loop applies this to every particle of every phase and changes nothing else. *)
Lemma p_C32_cyclic_lr : forall P L L', cyclic_lr_f P L = Ok L' -> Lrel (fun _ p p' => p' = wrap (pG P) p) L L'.
Proof.
  intros P L L' E. eapply points__rel; [|exact E]. intros k ph p p' _ _ Q. injection Q as <-. reflexivity.
Qed.

Example x_C32_wrap : exists (P : gridp R) p, proper P /\
  x_m P - (x_M P - x_m P) <= vx (px p) <= x_M P + (x_M P - x_m P) /\ vx (px p) < x_m P.
Proof.
  exists ex_gridp, (ex_p1 <| px := mkV3 (-1) 0 0 |>).
  split; [exact ex_proper|]. cbn. lra.
Qed.

(** ** C35 *)
Definition body_move (P : params R) (G : grid R) (ps : particle R * V3 R) (r : nat) (n : Z) : res (particle R * V3 R) :=
  let '(p, sv) := ps in
  m <- py_get (gm G) n ;;
  if (p_Mtol P <? m)%num then
    q <- py_get (gq G) n ;;
    qd <- py_get (gqd G) n ;;
    let p := p <| px := vadd (px p) (vdivs (vscale (p_dt P * Nr p r)%num q) m) |> in
    let dv := vdivs (vscale (p_dt P * Nr p r)%num qd) m in
    Ok (match pv p with
        | Own v => (p <| pv := Own (vadd v dv) |>, sv)
        | Shared => (p, vadd sv dv)
        end)
  else Ok (p, sv).

(** Moving a particle that has its own velocity array: the shared array is not
    written, and not read. *)
Lemma move_own P G p sv p' sv' v : move_material_point P G p sv = Ok (p', sv') -> pv p = Own v ->
  sv' = sv /\ (exists v', pv p' = Own v') /\ forall sv2, move_material_point P G p sv2 = Ok (p', sv2).
Proof.
  intros E HV.
  assert (C : forall sv2, exists w, sv' = sv /\ pv p' = Own w /\ move_material_point P G p sv2 = Ok (p', sv2)).
  { intros sv2. unfold move_material_point in *. pbinds E. injection E as <- <-.
    pose (RR := fun s1 s2 : particle R * V3 R => fst s1 = fst s2 /\ snd s1 = sv /\ snd s2 = sv2 /\ exists w, pv (fst s1) = Own w).
    destruct (foldM_sim RR
      (fun s r => body_move P G s r (nearby (pnstar p) r (nx (pG P))))
      (fun s r => body_move P G s r (nearby (pnstar p) r (nx (pG P)))))
      with (l := [0; 1; 2; 3]%nat) (s1 := (p, sv)) (s2 := (p, sv2)) (s1' := (b, b0)) as (s2' & E2 & F).
    - intros [q1 u1] [q2 u2] r s' (F1 & F2 & F3 & w & F4) EB. cbn [fst snd] in *. subst q2 u1 u2.
      unfold body_move in *. destruct (py_get (gm G) _) as [m|] eqn:Em; [|discriminate]. cbn [bind] in *.
      destruct (p_Mtol P <? m)%num.
      + destruct (py_get (gq G) _) as [q|]; [|discriminate]. cbn [bind] in *.
        destruct (py_get (gqd G) _) as [qd|]; [|discriminate]. cbn [bind] in *. cbv zeta in *. cbn [pv set] in *.
        rewrite F4 in *. injection EB as <-. eexists. split; [reflexivity|].
        split; [reflexivity|]. split; [reflexivity|]. split; [reflexivity|]. eexists. reflexivity.
      + injection EB as <-. eexists. split; [reflexivity|].
        split; [reflexivity|]. split; [reflexivity|]. split; [reflexivity|]. eexists. exact F4.
    - split; [reflexivity|]. split; [reflexivity|]. split; [reflexivity|]. eexists. exact HV.
    - exact E0.
    - destruct s2' as [q u]. destruct F as (F1 & F2 & F3 & w & F4). cbn [fst snd] in *. subst q b0 u.
      exists w. split; [reflexivity|]. split; [exact F4|].
      change (four P (pnstar p) _ (p, sv2)) with
        (foldM (fun s r => body_move P G s r (nearby (pnstar p) r (nx (pG P)))) (p, sv2) [0; 1; 2; 3]%nat).
      rewrite E2. cbn [bind]. rewrite E1. reflexivity. }
  destruct (C sv) as (w & -> & Hw & _). split; [reflexivity|]. split; [eauto|].
  intros sv2. destruct (C sv2) as (w2 & _ & _ & M). exact M.
Qed.

(** The velocity change that a particle gets when it is moved with a velocity
    array of its own. *)
Definition own_change (P : params R) (G : grid R) (p : particle R) (d : V3 R) : Prop :=
  exists p', move_material_point P G (p <| pv := Own v0 |>) v0 = Ok (p', v0) /\ pv p' = Own d.

Lemma move_shared P G p sv p' sv' : move_material_point P G p sv = Ok (p', sv') -> pv p = Shared ->
  pv p' = Shared /\ exists d, own_change P G p d /\ forall a, comp a sv' = comp a sv + comp a d.
Proof.
  intros E HV. unfold own_change, move_material_point in *. pbinds E. injection E as <- <-.
  pose (RR := fun s1 s2 : particle R * V3 R => pv (fst s1) = Shared /\ snd s2 = v0 /\
    exists w, fst s2 = fst s1 <| pv := Own w |> /\ forall a, comp a (snd s1) = comp a sv + comp a w).
  destruct (foldM_sim RR
      (fun s r => body_move P G s r (nearby (pnstar p) r (nx (pG P))))
      (fun s r => body_move P G s r (nearby (pnstar p) r (nx (pG P)))))
      with (l := [0; 1; 2; 3]%nat) (s1 := (p, sv)) (s2 := (p <| pv := Own v0 |>, v0 : V3 R)) (s1' := (b, b0)) as (s2' & E2 & F).
  - intros [q1 u1] [q2 u2] r s' (F1 & F2 & w & F3 & F4) EB. cbn [fst snd] in *. subst q2 u2.
    unfold body_move in *. destruct (py_get (gm G) _) as [m|] eqn:Em; [|discriminate]. cbn [bind] in *.
    destruct (p_Mtol P <? m)%num.
    + destruct (py_get (gq G) _) as [q|]; [|discriminate]. cbn [bind] in *.
      destruct (py_get (gqd G) _) as [qd|]; [|discriminate]. cbn [bind] in *. cbv zeta in *. cbn [pv set] in *.
      rewrite F1 in EB. injection EB as <-. eexists. split; [reflexivity|].
      split; [exact F1|]. split; [reflexivity|]. eexists. split; [reflexivity|].
      intros c. cbn [fst snd]. rewrite !comp_vadd, F4, Rplus_assoc. reflexivity.
    + injection EB as <-. eexists. split; [reflexivity|].
      split; [exact F1|]. split; [reflexivity|]. eexists. split; [reflexivity|]. exact F4.
  - split; [exact HV|]. split; [reflexivity|]. eexists. split; [reflexivity|]. intros c. rewrite comp_v0. cbn [snd]. ring.
  - exact E0.
  - destruct s2' as [q u]. destruct F as (F1 & F2 & w & F3 & F4). cbn [fst snd] in *. subst q u.
    split; [exact F1|]. exists w. split; [|exact F4]. eexists. split.
    + match goal with |- bind ?x ?k = _ => transitivity (bind (Ok (b <| pv := Own w |>, v0 : V3 R)) k) end.
      * f_equal. exact E2.
      * cbn [bind]. match goal with |- bind ?x ?k = _ => transitivity (bind (Ok a) k) end.
        -- f_equal. exact E1.
        -- cbn [bind]. reflexivity.
    + reflexivity.
Qed.

(** In a phase without declared initial velocity every particle is moved as if it
    were alone. *)
Lemma p_C35_independent : forall P G (ph ph' : phase R), move_all P G [ph] = Ok [ph'] ->
  s_law (ph_sol ph) <> Rigid -> (forall p, In p (live ph) -> exists v, pv p = Own v) ->
  Forall2 (fun p p' => forall sv, move_material_point P G p sv = Ok (p', sv)) (live ph) (live ph') /\
  ph_sv ph' = ph_sv ph /\ (forall p', In p' (live ph') -> exists v, pv p' = Own v).
Proof.
  intros P G ph ph' E HR HO. unfold move_all in E. apply (proj1 (phases_ok _ _ _)) in E.
  inversion E as [|a b l l' E1 E2]; subst. clear E E2.
  replace (is_rigid (s_law (ph_sol ph))) with false in E1 by (destruct (s_law (ph_sol ph)); cbn; congruence).
  pbinds E1. injection E1 as <-.
  eapply (each_live _ (fun sv => sv = ph_sv ph)
    (fun p p' => (forall sv, move_material_point P G p sv = Ok (p', sv)) /\ exists v, pv p' = Own v)) in E; [|reflexivity|].
  2:{ intros p s p' s' Hp -> Em. destruct (HO p Hp) as [v Hv].
      destruct (move_own _ _ _ _ _ _ _ Em Hv) as (-> & X & Y). auto. }
  destruct E as (-> & F & _). split; [|split; [reflexivity|]].
  - unfold live. cbn [ph_n ph_pts set]. clear - F. induction F as [|u1 u2 l l' (A & B) F IH]; constructor; auto.
  - unfold live. cbn [ph_n ph_pts set]. clear - F. induction F as [|u1 u2 l l' (A & B) F IH]; intros p' Hp; [contradiction|].
    destruct Hp as [<-|Hp]; auto.
Qed.

(** In a phase with declared initial velocity all particles share one velocity
    array: each of them gets the velocity changes of all. *)
Lemma p_C35_shared_refuted : forall P G (ph ph' : phase R), move_all P G [ph] = Ok [ph'] ->
  s_law (ph_sol ph) <> Rigid -> (forall p, In p (live ph) -> pv p = Shared) ->
  exists ds, Forall2 (own_change P G) (live ph) ds /\
    forall p' a, In p' (live ph') ->
      comp a (velocity ph' p') = comp a (ph_sv ph) + Rsum (map (comp a) ds).
Proof.
  intros P G ph ph' E HR HO. unfold move_all in E. apply (proj1 (phases_ok _ _ _)) in E.
  inversion E as [|a b l l' E1 E2]; subst. clear E E2.
  replace (is_rigid (s_law (ph_sol ph))) with false in E1 by (destruct (s_law (ph_sol ph)); cbn; congruence).
  pbinds E1. injection E1 as <-. unfold live in *. cbn [ph_n ph_pts set] in *.
  assert (C : forall n l sv l' sv', each n (move_material_point P G) l sv = Ok (l', sv') ->
    (forall p, In p (firstn n l) -> pv p = Shared) ->
    exists ds, Forall2 (own_change P G) (firstn n l) ds /\ (forall a, comp a sv' = comp a sv + Rsum (map (comp a) ds)) /\
      forall p', In p' (firstn n l') -> pv p' = Shared).
  { clear. induction n as [|n IH]; intros l sv l' sv' E HO.
    - cbn in E. injection E as <- <-. exists []. split; [constructor|]. split; [intros c; change (Rsum (map (comp c) [])) with 0; lra|intros p' []].
    - cbn [each] in E. destruct l as [|p l]; [discriminate|]. pbinds E. injection E as <- <-.
      destruct (move_shared _ _ _ _ _ _ E0 (HO p (or_introl eq_refl))) as (HS & d & HD & HA).
      destruct (IH _ _ _ _ E1) as (ds & F & HC & HS2); [intros q Hq; apply HO; right; exact Hq|].
      exists (d :: ds). split; [constructor; assumption|]. split.
      + intros c. rewrite HC, HA. change (Rsum (map (comp c) (d :: ds))) with (comp c d + Rsum (map (comp c) ds)). lra.
      + intros p' [<-|Hp]; auto. }
  destruct (C _ _ _ _ _ E HO) as (ds & F & HC & HS). exists ds. split; [exact F|].
  intros p' a Hp. unfold velocity. rewrite (HS p' Hp). cbn [ph_sv set]. apply HC.
Qed.

Lemma move_total P G p sv : reaches P p -> length (gm G) = nodes (pG P) -> length (gq G) = nodes (pG P) ->
  length (gqd G) = nodes (pG P) -> length (gV G) = nodes (pG P) ->
  exists p' sv', move_material_point P G p sv = Ok (p', sv').
Proof.
  intros HR Lm Lq Ld LV. unfold move_material_point.
  assert (GET : forall A (l : list A) r (d : A), length l = nodes (pG P) -> (r < 4)%nat ->
    exists a, py_get l (nearby (pnstar p) r (nx (pG P))) = Ok a).
  { intros A l r d Hl Hr. destruct (HR r Hr) as (k & Hk). rewrite <- Hl in Hk. exists (nth k l d).
    apply py_get_some. exact Hk. }
  destruct (four_total P (pnstar p) (fun ps r n => body_move P G ps r n) (fun s => pnstar (fst s) = pnstar p) (p, sv)) as ([q u] & E & EQ).
  - reflexivity.
  - intros r [q u] Hr Hq. unfold body_move. destruct (GET _ (gm G) r 0 Lm Hr) as [m ->]. cbn [bind].
    destruct (p_Mtol P <? m)%num; [|eexists; split; [reflexivity|exact Hq]].
    destruct (GET _ (gq G) r v0 Lq Hr) as [a ->]. destruct (GET _ (gqd G) r v0 Ld Hr) as [b ->]. cbn [bind].
    eexists. split; [reflexivity|]. cbn [pv set]. destruct (pv q); exact Hq.
  - cbn [fst] in EQ. match goal with |- exists p' sv', bind ?x ?k = _ => assert (E2 : x = Ok (q, u)) by exact E end.
    rewrite E2. cbn [bind]. rewrite EQ.
    destruct (four_total P (pnstar p) (fun rho r n => m <- py_get (gm G) n ;;
       if (p_Mtol P <? m)%num then V <- py_get (gV G) n ;; Ok (rho + Nr q r * m / V)%num else Ok rho) (fun _ => True) n0)
       as (rho & E3 & _).
    + exact I.
    + intros r s Hr _. destruct (GET _ (gm G) r 0 Lm Hr) as [m ->]. cbn [bind].
      destruct (p_Mtol P <? m)%num; [|eauto]. destruct (GET _ (gV G) r 0 LV Hr) as [V ->]. cbn [bind]. eauto.
    + rewrite E3. cbn [bind]. eauto.
Qed.

Lemma ex_move pv1 : exists P G (ph ph' : phase R), move_all P G [ph] = Ok [ph'] /\ s_law (ph_sol ph) = Elastic /\
  length (live ph) = 2%nat /\ forall p, In p (live ph) -> pv p = pv1.
Proof.
  destruct (grid_init_ok (ex_gridp (T := R)) ex_bounds ex_proper) as (G0 & _ & HG0).
  pose (P := ex_params (T := R) ex_bounds).
  assert (HL : located ex_gridp (locate ex_gridp (ex_p1 (T := R))))
    by (apply locate_located; apply (ex_dom Elastic (ex_phase Elastic)); cbn; auto).
  assert (HR : reaches P (locate ex_gridp ex_p1)) by (apply located_reaches; [exact ex_proper|exact HL]).
  remember (locate ex_gridp ex_p1) as p eqn:Ep. clear Ep HL HG0.
  pose (n := nodes (pG P)).
  pose (G := G0 <| gm := repeat 1 n |> <| gq := repeat v0 n |> <| gqd := repeat v0 n |> <| gV := repeat 1 n |>).
  assert (HR2 : reaches P (p <| pv := pv1 |>)) by exact HR.
  exists P, G, (mkPhase (ex_solid Elastic) 2 v0 [p <| pv := pv1 |>; p <| pv := pv1 |>]).
  assert (M : forall sv, exists p' sv', move_material_point P G (p <| pv := pv1 |>) sv = Ok (p', sv'))
    by (intros sv; apply move_total; try exact HR2; apply repeat_length).
  destruct (M v0) as (p1 & s1 & E1). destruct (M s1) as (p2 & s2 & E2).
  exists (mkPhase (ex_solid Elastic) 2 s2 [p1; p2]). split.
  - unfold move_all. apply phases_ok. constructor; [|constructor].
    cbn [ph_sol s_law is_rigid ex_solid ph_n each ph_pts ph_sv]. rewrite E1. cbn [bind]. rewrite E2. reflexivity.
  - split; [reflexivity|]. split; [reflexivity|]. intros q [<-|[<-|[]]]; reflexivity.
Qed.

Example x_C35_independent : exists P G (ph ph' : phase R), move_all P G [ph] = Ok [ph'] /\
  s_law (ph_sol ph) <> Rigid /\ length (live ph) = 2%nat /\ forall p, In p (live ph) -> exists v, pv p = Own v.
Proof.
  destruct (ex_move (Own v0)) as (P & G & ph & ph' & A & B & C & D). exists P, G, ph, ph'.
  rewrite B. split; [exact A|]. split; [discriminate|]. split; [exact C|]. eauto.
Qed.
Example x_C35_shared_refuted : exists P G (ph ph' : phase R), move_all P G [ph] = Ok [ph'] /\
  s_law (ph_sol ph) <> Rigid /\ length (live ph) = 2%nat /\ forall p, In p (live ph) -> pv p = Shared.
Proof.
  destruct (ex_move Shared) as (P & G & ph & ph' & A & B & C & D). exists P, G, ph, ph'.
  rewrite B. split; [exact A|]. split; [discriminate|]. split; [exact C|]. eauto.
Qed.
