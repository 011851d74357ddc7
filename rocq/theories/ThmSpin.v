(** * Momentum and uniform motion around the cylinder: C92. *)
From Coq Require Import ZArith Reals List Bool Arith Lra Lia.
From Verif Require Import State NumR Spec SpecLaws SpecStep SpecScheme SpecRing LibList LibR ModelGrid ModelConstit ModelParticle ModelMPList
  ModelIntegr ModelMain ProofsGrid ProofsMap ProofsP2G ProofsWalls ProofsLaws ProofsInOut ProofsHist Concrete
  ThmMapping ThmWalls ThmLaws ThmInOut ThmHist ProofsStep ProofsPoints ThmStep ThmBalance ThmEnergy ThmFall ThmGeo ProofsScheme ThmScheme
  ProofsRing ThmRing.
Import ListNotations.
Local Open Scope R_scope.

(** ** C92 *)
(** A point acts on a node of the cylinder if its weight there or the gradient of its weight is not zero. *)
Definition acts (P : gridp R) (x : V3 R) (i j : nat) : Prop := rhat P x i j <> 0 \/ exists a, rghat P x a i j <> 0.
(** All nodes that points act on are heavy enough. *)
Definition rheavy (P : gridp R) (tol : R) (B : list mp) : Prop := forall q i j, In q B -> (i < nx P - 1)%nat -> (j < ny P)%nat ->
  acts P (q_x q) i j -> tol < Rsum (map (fun q => q_m q * rhat P (q_x q) i j) B).

Lemma ghat_sum P x a : proper P -> in_dom P x -> fsum (nodes P) (fun k => ghat P x a k) = 0.
Proof.
  intros HP HD. pose (p := locate P (ex_p1 <| px := x |>)).
  assert (HL : located P p) by (apply locate_located; exact HD).
  pose (Q := ex_params (T := R) ex_bounds <| pG := P |>).
  pose proof (corner_gsum Q p a (fun _ => 1) HP HL) as S1. change (pG Q) with P in S1. change (px p) with x in S1.
  rewrite (fsum_ext _ (fun k => ghat P x a k) (fun k => 1 * ghat P x a k)) by (intros; ring). rewrite <- S1.
  pose proof (cell_w_pos _ HP) as Hw. pose proof (cell_h_pos _ HP) as Hh.
  rewrite (fsum_ext _ _ (fun r => comp a (wG (cell_w P) (cell_h P) (loc P x) r))).
  - apply shape_grad_zero; lra.
  - intros r Hr. rewrite (located_G P p r HL). change (px p) with x. ring.
Qed.

Section Spin.
  Context (E : scheme).
  Let P := e_P E.
  Context (HP : proper P).
  Lemma rhat_sum x : in_dom P x -> rsum E (rhat P x) = 1.
  Proof.
    intros HD. rewrite <- (proj1 (hat_sums P x HP HD)). rewrite (fsum_ext _ _ (fun k => hat P x k * (fun _ _ => 1) (rc P k) (k / nx P)%nat)) by (intros; ring).
    rewrite (gather P HP (hat P x) (fun _ _ => 1)). unfold rsum. fold P. apply fsum_ext. intros j Hj. apply fsum_ext. intros i Hi.
    rewrite (tie_hat P HP x i j HD Hi). ring.
  Qed.
  Lemma rghat_sum x a : in_dom P x -> rsum E (rghat P x a) = 0.
  Proof.
    intros HD. rewrite <- (ghat_sum P x a HP HD). rewrite (fsum_ext _ (fun k => ghat P x a k) (fun k => ghat P x a k * (fun _ _ => 1) (rc P k) (k / nx P)%nat)) by (intros; ring).
    rewrite (gather P HP (ghat P x a) (fun _ _ => 1)). unfold rsum. fold P. apply fsum_ext. intros j Hj. apply fsum_ext. intros i Hi.
    rewrite (tie_ghat P HP x a i j HD Hi). ring.
  Qed.
  Lemma rsum_cong f g : (forall i j, (i < nx P - 1)%nat -> (j < ny P)%nat -> f i j = g i j) -> rsum E f = rsum E g.
  Proof. intros H. unfold rsum. apply fsum_ext. intros j Hj. apply fsum_ext. intros i Hi. apply H; assumption. Qed.
  Lemma rsum_scal c f : rsum E (fun i j => c * f i j) = c * rsum E f.
  Proof. unfold rsum. rewrite <- fsum_scal. apply fsum_ext. intros j _. apply fsum_scal. Qed.
  Lemma rsum_plus f g : rsum E (fun i j => f i j + g i j) = rsum E f + rsum E g.
  Proof. unfold rsum. rewrite <- fsum_plus. apply fsum_ext. intros j _. apply fsum_plus. Qed.
  Lemma rsum_swap {A} (g : A -> nat -> nat -> R) l : rsum E (fun i j => Rsum (map (fun q => g q i j) l)) = Rsum (map (fun q => rsum E (g q)) l).
  Proof.
    induction l as [|q l IH]; cbn [map Rsum fold_right].
    - unfold rsum. apply fsum_zero. intros j _. apply fsum_zero. reflexivity.
    - change (fold_right Rplus 0 (map (fun q => rsum E (g q)) l)) with (Rsum (map (fun q => rsum E (g q)) l)). rewrite <- IH, <- rsum_plus. reflexivity.
  Qed.

  Context (B : list mp) (HB : Forall (fun q => in_dom P (q_x q)) B) (HT : 0 <= e_tol E) (HH : rheavy P (e_tol E) B).
  Let HB' : forall q, In q B -> in_dom P (q_x q). Proof. apply Forall_forall. exact HB. Qed.
  Let B1 := map (r_strained E B) B.

  Lemma not_heavy q i j : In q B -> (i < nx P - 1)%nat -> (j < ny P)%nat -> ~ e_tol E < r_mass E B i j ->
    rhat P (q_x q) i j = 0 /\ forall a, rghat P (q_x q) a i j = 0.
  Proof.
    intros A Hi Hj N. split; [|intros a].
    - destruct (Req_dec (rhat P (q_x q) i j) 0) as [X|X]; [exact X|]. exfalso. apply N. apply (HH q i j A Hi Hj). left. exact X.
    - destruct (Req_dec (rghat P (q_x q) a i j) 0) as [X|X]; [exact X|]. exfalso. apply N. apply (HH q i j A Hi Hj). right. exists a. exact X.
  Qed.

  (** The impulse that the nodes give to the points. *)
  Lemma impulse a : (forall i j, (i < nx P - 1)%nat -> (j < ny P)%nat -> r_open E a i j = 1) ->
    Rsum (map (fun q => q_m q * rsum E (fun i j => rhat P (q_x q) i j * r_acc E B B1 a i j)) B) =
    e_damp E * Rsum (map (fun q => q_m q * comp a (q_b q)) B1).
  Proof.
    intros HO.
    rewrite (Rsum_ext _ (fun q => rsum E (fun i j => q_m q * rhat P (q_x q) i j * r_acc E B B1 a i j)) B).
    2:{ intros q A. rewrite <- rsum_scal. apply rsum_cong. intros. ring. }
    rewrite <- (rsum_swap (fun q i j => q_m q * rhat P (q_x q) i j * r_acc E B B1 a i j) B).
    rewrite (rsum_cong _ (fun i j => e_damp E * r_force E B1 a i j)).
    - rewrite rsum_scal. f_equal. unfold r_force. fold P.
      rewrite (rsum_swap (fun q i j => q_m q * comp a (q_b q) * rhat P (q_x q) i j - q_V q * over (fun b => el a b (q_s q) * rghat P (q_x q) b i j)) B1).
      apply Rsum_ext. intros q A. apply in_map_iff in A. destruct A as (q0 & <- & A).
      set (q := r_strained E B q0). change (q_x q) with (q_x q0). pose proof (HB' q0 A) as HD.
      transitivity (q_m q * comp a (q_b q) * rsum E (rhat P (q_x q0)) + (- q_V q * el a AX (q_s q)) * rsum E (rghat P (q_x q0) AX)
        + (- q_V q * el a AY (q_s q)) * rsum E (rghat P (q_x q0) AY) + (- q_V q * el a AZ (q_s q)) * rsum E (rghat P (q_x q0) AZ)).
      + rewrite <- !rsum_scal, <- !rsum_plus. apply rsum_cong. intros. unfold over. ring.
      + rewrite rhat_sum, !rghat_sum by exact HD. ring.
    - intros i j Hi Hj.
      transitivity (r_mass E B i j * r_acc E B B1 a i j).
      { unfold r_mass. fold P. rewrite Rmult_comm, <- Rsum_scal. apply Rsum_ext. intros. ring. }
      unfold r_acc. destruct (Rlt_dec (e_tol E) (r_mass E B i j)) as [D|D].
      + rewrite (HO i j Hi Hj). field. lra.
      + rewrite Rmult_0_r. symmetry. apply Rmult_eq_0_compat_l. unfold r_force. apply Rsum_zero. intros q A. fold P.
        apply in_map_iff in A. destruct A as (q0 & <- & A). destruct (not_heavy q0 i j A Hi Hj D) as [X Y].
        change (q_x (r_strained E B q0)) with (q_x q0). unfold over. rewrite X, !Y. ring.
  Qed.

  (** Uniform velocity without stress. *)
  Section Uniform.
    Context (c g : V3 R)
      (HV : forall q, In q B -> q_v q = c /\ q_s q = m0 /\ q_p q = 0 /\ (if q_first q then e_g E else q_b q) = g)
      (HO : forall a i j, (i < nx P - 1)%nat -> (j < ny P)%nat -> r_open E a i j = 1).
    Lemma uniform_vel q a i j : In q B -> (i < nx P - 1)%nat -> (j < ny P)%nat -> acts P (q_x q) i j -> r_vel E B a i j = comp a c.
    Proof.
      intros A Hi Hj HA. pose proof (HH q i j A Hi Hj HA) as D. change (Rsum (map (fun q => q_m q * rhat P (q_x q) i j) B)) with (r_mass E B i j) in D.
      unfold r_vel. destruct (Rlt_dec _ _); [|contradiction]. rewrite (HO a i j Hi Hj). fold P.
      rewrite (Rsum_ext _ (fun q => comp a c * (q_m q * rhat P (q_x q) i j))).
      - rewrite Rsum_scal. change (Rsum (map (fun q => q_m q * rhat P (q_x q) i j) B)) with (r_mass E B i j). field. lra.
      - intros q0 A0. destruct (HV q0 A0) as (-> & _). ring.
    Qed.
    Lemma uniform_strain q : In q B -> r_strain E B q = m0.
    Proof.
      intros A. pose proof (HB' q A) as HD. apply m3_ext. intros a b. unfold r_strain. rewrite el_m3.
      rewrite (rsum_cong _ (fun i j => (comp a c / 2) * rghat P (q_x q) b i j + (comp b c / 2) * rghat P (q_x q) a i j)).
      - rewrite rsum_plus, !rsum_scal, !rghat_sum by exact HD. transitivity 0; [ring|destruct a, b; reflexivity].
      - intros i j Hi Hj. fold P.
        assert (X : forall a b, r_vel E B a i j * rghat P (q_x q) b i j = comp a c * rghat P (q_x q) b i j).
        { intros a0 b0. destruct (Req_dec (rghat P (q_x q) b0 i j) 0) as [Z|Z]; [rewrite Z; ring|].
          rewrite (uniform_vel q a0 i j A Hi Hj); [reflexivity|]. right. exists b0. exact Z. }
        rewrite !X. unfold Rdiv. ring.
    Qed.
    Lemma uniform_strained q : In q B -> r_strained E B q = mkMp (q_mat q) (q_m q) (q_V q) (q_x q) c m0 0 g (q_first q).
    Proof.
      intros A. unfold r_strained. rewrite (uniform_strain q A). destruct (HV q A) as (EV & ES & EP & EB). rewrite EV, EB. f_equal.
      - apply m3_ext. intros a b. unfold t_stress, t_material, over, tr3. rewrite el_m3, ES. destruct (q_mat q); rewrite el_m3;
        destruct a, b; cbn; unR; rewrite ?EP; unfold Rdiv; ring.
      - unfold t_pressure, tr3. rewrite ES, EP. destruct (q_mat q); cbn; unR; lra.
    Qed.
    Lemma uniform_acc q a i j : In q B -> (i < nx P - 1)%nat -> (j < ny P)%nat -> acts P (q_x q) i j -> r_acc E B B1 a i j = e_damp E * comp a g.
    Proof.
      intros A Hi Hj HA. pose proof (HH q i j A Hi Hj HA) as D. change (Rsum (map (fun q => q_m q * rhat P (q_x q) i j) B)) with (r_mass E B i j) in D.
      unfold r_acc. destruct (Rlt_dec _ _); [|contradiction]. rewrite (HO a i j Hi Hj).
      replace (r_force E B1 a i j) with (comp a g * r_mass E B i j); [field; lra|].
      unfold r_force, r_mass, B1. rewrite map_map, <- Rsum_scal. apply Rsum_ext. intros q0 A0. rewrite (uniform_strained q0 A0).
      unfold over. destruct a; cbn; unR; ring.
    Qed.
    Lemma uniform_step : let c' := v3 (fun a => comp a c + e_dt E * (e_damp E * comp a g)) in
      r_step E B = map (fun q => mkMp (q_mat q) (q_m q) (q_V q) (back E (v3 (fun a => comp a (q_x q) + e_dt E * comp a c'))) c' m0 0 g (q_first q)) B.
    Proof.
      intros c'. unfold r_step. rewrite map_map. apply map_ext_in. intros q A. rewrite (uniform_strained q A).
      unfold r_moved. cbn [q_mat q_m q_V q_x q_v q_s q_p q_b q_first]. fold B1.
      assert (X : forall f k, (forall i j, (i < nx P - 1)%nat -> (j < ny P)%nat -> acts P (q_x q) i j -> f i j = k) ->
        rsum E (fun i j => rhat (e_P E) (q_x q) i j * f i j) = k).
      { intros f k Hf. rewrite (rsum_cong _ (fun i j => k * rhat P (q_x q) i j)).
        - rewrite rsum_scal, rhat_sum by auto. ring.
        - intros i j Hi Hj. fold P. destruct (Req_dec (rhat P (q_x q) i j) 0) as [Z|Z]; [rewrite Z; ring|].
          rewrite (Hf i j Hi Hj (or_introl Z)). ring. }
      assert (XA : forall a, rsum E (fun i j => rhat (e_P E) (q_x q) i j * r_acc E B B1 a i j) = e_damp E * comp a g)
        by (intros a; apply X; intros i j Hi Hj HA; apply (uniform_acc q); assumption).
      assert (XV : forall a, rsum E (fun i j => rhat (e_P E) (q_x q) i j * (r_vel E B a i j + e_dt E * r_acc E B B1 a i j)) = comp a c').
      { intros a. replace (comp a c') with (comp a c + e_dt E * (e_damp E * comp a g)) by (destruct a; reflexivity). apply X. intros i j Hi Hj HA.
        rewrite (uniform_acc q a i j), (uniform_vel q a i j) by assumption. ring. }
      f_equal.
      - f_equal. unfold v3. rewrite !XV. reflexivity.
      - unfold c', v3. rewrite !XA. reflexivity.
    Qed.
  End Uniform.
End Spin.

(** The factor that P.damping puts on nodal forces. *)
Definition damp_of (P : params R) : R := if p_damping P then 7/10 else 1.
(** No wall stops component [a] anywhere. *)
Definition unwalled (P : params R) (G : grid R) (a : axis) : Prop := forall k, (k < nx (pG P) * ny (pG P))%nat -> passes (roughness (pB P)) G a k = 1.
Definition gravity_of (l : loads R) : V3 R := mkV3 (ld_g l * sin (ld_theta l)) (ld_g l * cos (ld_theta l)) 0.

Lemma unwalled_open P (G : grid R) l a : unwalled P G a -> forall i j, (i < nx (pG P) - 1)%nat -> (j < ny (pG P))%nat -> r_open (scheme_of P l G) a i j = 1.
Proof. intros H i j Hi Hj. unfold r_open. cbn [scheme_of e_open e_P]. apply H. nia. Qed.
Lemma all_dom P L (Q : all_live L (fun _ p => in_dom P (px p))) : forall k, Forall (fun q => in_dom P (q_x q)) (bodies_from k L).
Proof.
  induction L as [|ph L IH]; intros k; [constructor|]. cbn [bodies_from]. apply Forall_app. split.
  - apply Forall_forall. intros q A. apply in_map_iff in A. destruct A as (p & <- & A). apply (Q ph p (or_introl eq_refl) A).
  - apply IH. intros ph0 p0 C. apply Q. right. exact C.
Qed.

(** With cyclic_lr, a component of the momentum that no wall stops changes in a step by exactly what gravity gives. *)
Lemma p_C92_momentum : forall uf fill (s s' : state R) a, proper (pG (sP s)) -> grid_ok (pG (sP s)) (sG s) ->
  all_live (sL s) (fun _ p => in_dom (pG (sP s)) (px p)) -> ring_only (sP s) -> ends_agree (pG (sP s)) (sG s) -> no_rub (pB (sP s)) ->
  simple_laws (sL s) -> own_velocities (sL s) -> no_surface (sP s) (uf (sP s)) ->
  unwalled (sP s) (sG s) a -> 0 <= p_Mtol (sP s) -> rheavy (pG (sP s)) (p_Mtol (sP s)) (bodies (sL s)) ->
  time_march uf fill s = Ok s' ->
  psum (sL s') (fun ph p => pm p * comp a (velocity ph p)) = psum (sL s) (fun ph p => pm p * comp a (velocity ph p)) +
    p_dt (sP s) * damp_of (sP s) * Rsum (map (fun q => q_m q * comp a (if q_first q then gravity_of (uf (sP s)) else q_b q)) (bodies (sL s))).
Proof.
  intros uf fill s s' a HP HG HD HS HE NR HL HO HN HW HM HH E.
  pose proof (p_C91_step uf fill s s' HP HG HD HS HE NR HL HO HN E) as ES.
  set (SC := scheme_of (sP s) (uf (sP s)) (sG s)) in *.
  rewrite !(psum_bodies (fun ph p => pm p * comp a (velocity ph p)) (fun q => q_m q * comp a (q_v q)) _ (fun _ _ _ => eq_refl) 0%nat).
  change (bodies_from 0 (sL s')) with (bodies (sL s')). change (bodies_from 0 (sL s)) with (bodies (sL s)). rewrite ES.
  set (B := bodies (sL s)) in *.
  pose proof (impulse SC HP B (all_dom _ _ HD 0%nat) HM HH a (unwalled_open _ _ _ a HW)) as IM.
  unfold r_step. rewrite !map_map. cbn [r_moved q_m q_v].
  rewrite (Rsum_ext _ (fun q => q_m q * comp a (q_v q) + e_dt SC * (q_m q * rsum SC (fun i j => rhat (e_P SC) (q_x q) i j * r_acc SC B (map (r_strained SC B) B) a i j)))).
  - rewrite Rsum_plus, Rsum_scal, IM. f_equal. rewrite map_map. change (e_damp SC) with (damp_of (sP s)). rewrite Rmult_assoc. reflexivity.
  - intros q A. change (q_v (r_strained SC B q)) with (q_v q). change (q_x (r_strained SC B q)) with (q_x q). change (q_m (r_strained SC B q)) with (q_m q).
    destruct a; cbn [v3 comp vx vy vz]; ring.
Qed.

(** A stress-free body that moves uniformly around a cylinder without walls is, after any number of steps, still
    stress-free and uniform; its velocity is that of free fall, and every point is where free fall puts it, up to whole turns. *)
Lemma p_C92_spin : forall uf fill n (s s' : state R) tr tr' c g, rplain s -> (forall P, no_surface (sP s) (uf P)) ->
  0 <= p_Mtol (sP s) -> (forall a, unwalled (sP s) (sG s) a) -> (forall P, gravity_of (uf P) = g) ->
  (forall q, In q (bodies (sL s)) -> q_v q = c /\ q_s q = m0 /\ q_p q = 0 /\ (q_first q = false -> q_b q = g)) ->
  (forall j s1 tr1, (j < n)%nat -> after uf fill j s tr = Ok (s1, tr1) ->
     all_live (sL s1) (fun _ p => in_dom (pG (sP s)) (px p)) /\ rheavy (pG (sP s)) (p_Mtol (sP s)) (bodies (sL s1))) ->
  after uf fill n s tr = Ok (s', tr') ->
  let dt := p_dt (sP s) in let d := damp_of (sP s) in
  Forall2 (fun q q' =>
    q' = mkMp (q_mat q) (q_m q) (q_V q) (q_x q') (v3 (fun a => comp a c + INR n * dt * (d * comp a g))) m0 0 (q_b q') (q_first q) /\
    exists z : Z, forall a, comp a (q_x q') = comp a (q_x q) + INR n * dt * comp a c + INR n * (INR n + 1) / 2 * (dt * dt) * (d * comp a g)
      + match a with AX => IZR z * girth (pG (sP s)) | _ => 0 end)
    (bodies (sL s)) (bodies (sL s')).
Proof.
  intros uf fill n. induction n as [|n IH]; intros s s' tr tr' c g HPl HN HM HW HGR HB HI E dt d.
  - cbn [after] in E. injection E as <- _. cbn [INR].
    assert (X : forall l, (forall q, In q l -> q_v q = c /\ q_s q = m0 /\ q_p q = 0) -> Forall2 (fun q q' =>
      q' = mkMp (q_mat q) (q_m q) (q_V q) (q_x q') (v3 (fun a => comp a c + 0 * dt * (d * comp a g))) m0 0 (q_b q') (q_first q) /\
      exists z : Z, forall a, comp a (q_x q') = comp a (q_x q) + 0 * dt * comp a c + 0 * (0 + 1) / 2 * (dt * dt) * (d * comp a g)
      + match a with AX => IZR z * girth (pG (sP s)) | _ => 0 end) l l).
    { induction l as [|q l IHl]; intros H; constructor.
      - destruct (H q (or_introl eq_refl)) as (A1 & A2 & A3). split.
        + destruct q. cbn in A1, A2, A3 |- *. subst. f_equal. destruct c. unfold v3. cbn. f_equal; ring.
        + exists 0%Z. intros a. destruct a; lra.
      - apply IHl. intros q0 A. apply H. right. exact A. }
    apply X. intros q A. destruct (HB q A) as (A1 & A2 & A3 & _). auto.
  - cbn [after] in E. destruct (pass uf fill s tr) as [[s1 tr1]|] eqn:PS; [|discriminate].
    destruct (HI 0%nat s tr (Nat.lt_0_succ n) eq_refl) as [D0 H0].
    destruct (rplain_step uf fill s tr s1 tr1 HPl D0 (HN _) PS) as (S1 & P1 & V1 & H1 & B1).
    set (SC := scheme_of (sP s) (uf (sP s)) (sG s)) in *. set (B := bodies (sL s)) in *.
    assert (US := uniform_step SC (rp_proper _ HPl) B (all_dom _ _ D0 0%nat) HM H0 c g). specialize (US ltac:(
      intros q A; destruct (HB q A) as (A1 & A2 & A3 & A4); split; [exact A1|split; [exact A2|split; [exact A3|]]];
      destruct (q_first q) eqn:EF; [apply HGR|apply A4; reflexivity])). specialize (US (fun a => unwalled_open _ _ _ a (HW a))). cbv zeta in US.
    change (e_dt SC) with dt in US. change (e_damp SC) with d in US.
    set (c1 := v3 (fun a => comp a c + dt * (d * comp a g))) in *. rewrite US in B1.
    assert (EG : pG (sP s1) = pG (sP s)) by (rewrite P1; reflexivity).
    assert (ED : p_dt (sP s1) = dt) by (rewrite P1; reflexivity).
    assert (EA : damp_of (sP s1) = d) by (rewrite P1; reflexivity).
    specialize (IH s1 s' tr1 tr' c1 g S1). cbv zeta in IH. rewrite ED, EA, EG in IH.
    assert (IH' := IH).
    specialize (IH ltac:(intros Q; rewrite P1; exact (HN Q)) ltac:(rewrite P1; exact HM)).
    specialize (IH ltac:(intros a k Hk; rewrite EG in Hk; unfold passes; rewrite V1, H1, P1; exact (HW a k Hk)) HGR).
    specialize (IH ltac:(rewrite B1; intros q A; apply in_map_iff in A; destruct A as (q0 & <- & A); cbn; repeat split; auto)).
    specialize (IH ltac:(intros j s2 tr2 Hj X; rewrite P1; apply (HI (Datatypes.S j) s2 tr2); [lia|cbn [after]; rewrite PS; exact X]) E).
    rewrite B1 in IH. clear - IH.
    assert (X : forall l l', Forall2 (fun q q' : mp =>
        q' = mkMp (q_mat q) (q_m q) (q_V q) (q_x q') (v3 (fun a => comp a c1 + INR n * dt * (d * comp a g))) m0 0 (q_b q') (q_first q) /\
        (exists z : Z, forall a, comp a (q_x q') = comp a (q_x q) + INR n * dt * comp a c1 + INR n * (INR n + 1) / 2 * (dt * dt) * (d * comp a g) +
           match a with AX => IZR z * girth (pG (sP s)) | _ => 0 end))
       (map (fun q => mkMp (q_mat q) (q_m q) (q_V q) (back SC (v3 (fun a => comp a (q_x q) + dt * comp a c1))) c1 m0 0 g (q_first q)) l) l' ->
       Forall2 (fun q q' : mp =>
        q' = mkMp (q_mat q) (q_m q) (q_V q) (q_x q') (v3 (fun a => comp a c + INR (Datatypes.S n) * dt * (d * comp a g))) m0 0 (q_b q') (q_first q) /\
        (exists z : Z, forall a, comp a (q_x q') = comp a (q_x q) + INR (Datatypes.S n) * dt * comp a c + INR (Datatypes.S n) * (INR (Datatypes.S n) + 1) / 2 * (dt * dt) * (d * comp a g) +
           match a with AX => IZR z * girth (pG (sP s)) | _ => 0 end)) l l').
    { induction l as [|q l IHl]; intros l' H; inversion H as [|q1 q' l1 l1' [HA [z HZ]] HF E1 E2]; subst; constructor; [|apply IHl; exact HF].
      cbn [q_mat q_m q_V q_x q_first] in HA, HZ. rewrite S_INR. split.
      - rewrite HA at 1. f_equal. unfold v3, c1. cbn [comp v3 vx vy vz]. f_equal; ring.
      - assert (C1 : forall a, comp a c1 = comp a c + dt * (d * comp a g)) by (intros []; reflexivity).
        assert (BK : exists z0 : Z, forall a, comp a (back SC (v3 (fun a => comp a (q_x q) + dt * comp a c1))) = comp a (q_x q) + dt * comp a c1 +
           match a with AX => IZR z0 * girth (pG (sP s)) | _ => 0 end).
        { unfold back. change (e_P SC) with (pG (sP s)). destruct (Rlt_dec _ _); [exists 1%Z|destruct (Rlt_dec _ _); [exists (-1)%Z|exists 0%Z]];
            intros []; cbn [v3 comp vx vy vz]; lra. }
        destruct BK as [z0 BK]. exists (z + z0)%Z. intros a. rewrite HZ, BK, C1, plus_IZR. destruct a; field. }
    apply X. exact IH.
Qed.

(** A body of one point that crosses the seam of a cylinder without walls. *)
Definition sp_bounds : bounds R :=
  mkBounds false false false None false true false false false false false
           false false false false false false false false false.
Definition sp_loads (_ : params R) : loads R := mkLoads 0 0 0 0.
Definition sp_L (x : R) : list (phase R) := [mkPhase (ex_solid Elastic) 1 v0 [ex_particle x (1/2) (mkV3 1 0 0) m0]].
Definition sp_state (G : grid R) (x : R) : state R := mkState (ex_params sp_bounds) G (sp_L x).

Lemma over1 x : x / 1 = x.
Proof. lra. Qed.
Lemma act_tent t : Rabs t <= 19/20 \/ 1 < Rabs t -> (tent t <> 0 \/ slope t <> 0) -> 1/20 <= tent t.
Proof.
  intros H A. destruct H as [H|H].
  - unfold tent. eapply Rle_trans; [|apply Rmax_r]. lra.
  - exfalso. assert (T : tent t = 0) by (apply tent_far; revert H; unfold Rabs; destruct (Rcase_abs t); lra).
    assert (S1 : slope t = 0) by (apply slope_far; revert H; unfold Rabs; destruct (Rcase_abs t); lra).
    destruct A; contradiction.
Qed.
Lemma ex_w : cell_w (@ex_gridp R _) = 1 /\ cell_h (@ex_gridp R _) = 1 /\ girth (@ex_gridp R _) = 3.
Proof. unfold cell_w, cell_h, girth. cbn. unR. repeat split; lra. Qed.
Definition off (t : R) : Prop := Rabs t <= 19/20 \/ 1 < Rabs t.
Lemma act_around d : off (d - 3) -> off d -> off (d + 3) ->
  (around 3 (fun d => tent (d / 1)) d <> 0 \/ around 3 (fun d => slope (d / 1) / 1) d <> 0) -> 1/20 <= around 3 (fun d => tent (d / 1)) d.
Proof.
  intros H1 H2 H3 A. unfold around in *. rewrite !over1 in *.
  pose proof (tent_nonneg (d - 3)). pose proof (tent_nonneg d). pose proof (tent_nonneg (d + 3)).
  pose proof (act_tent _ H1) as X1. pose proof (act_tent _ H2) as X2. pose proof (act_tent _ H3) as X3.
  destruct (Req_dec (tent (d - 3)) 0) as [T1|T1]; [|specialize (X1 (or_introl T1)); lra].
  destruct (Req_dec (tent d) 0) as [T2|T2]; [|specialize (X2 (or_introl T2)); lra].
  destruct (Req_dec (tent (d + 3)) 0) as [T3|T3]; [|specialize (X3 (or_introl T3)); lra].
  destruct (Req_dec (slope (d - 3)) 0) as [Q1|Q1]; [|specialize (X1 (or_intror Q1)); lra].
  destruct (Req_dec (slope d) 0) as [Q2|Q2]; [|specialize (X2 (or_intror Q2)); lra].
  destruct (Req_dec (slope (d + 3)) 0) as [Q3|Q3]; [|specialize (X3 (or_intror Q3)); lra].
  exfalso. destruct A as [A|A]; apply A; rewrite ?T1, ?T2, ?T3, ?Q1, ?Q2, ?Q3; lra.
Qed.
Ltac off_tac := unfold off, Rabs; match goal with |- context [Rcase_abs ?a] => destruct (Rcase_abs a) end; lra.
Lemma sp_heavy q : q_m q = 2 -> vy (q_x q) = 1/2 -> vx (q_x q) = 59/20 \/ vx (q_x q) = 1/20 \/ vx (q_x q) = 19/20 -> rheavy ex_gridp (1/1000) [q].
Proof.
  intros EM EY EX q0 i j [<-|[]] Hi Hj HA. cbn [map Rsum fold_right]. rewrite EM.
  destruct ex_w as (EW & EH & EG).
  cut (1/400 <= rhat ex_gridp (q_x q) i j); [intros; lra|].
  change (nx (@ex_gridp R _)) with 4%nat in Hi. change (ny (@ex_gridp R _)) with 3%nat in Hj.
  unfold acts, rghat in HA. unfold rhat in *. rewrite EW, EH, EG in *. unfold r_x, r_y in *. rewrite EW, EH in *. rewrite EY in *.
  change (x_m (@ex_gridp R _)) with 0 in *. change (y_m (@ex_gridp R _)) with 0 in *.
  set (X := around 3 (fun d => tent (d / 1)) (vx (q_x q) - (0 + INR i * 1))) in *.
  set (XS := around 3 (fun d => slope (d / 1) / 1) (vx (q_x q) - (0 + INR i * 1))) in *.
  assert (HX : X <> 0 \/ XS <> 0 -> 1/20 <= X).
  { apply act_around; (destruct i as [|[|[|i]]]; [| | |lia]); cbn [INR]; destruct EX as [-> | [-> | ->]]; off_tac. }
  set (Y := tent ((1/2 - (0 + INR j * 1)) / 1)) in *. set (YS := slope ((1/2 - (0 + INR j * 1)) / 1)) in *.
  assert (HY : Y <> 0 \/ YS <> 0 -> 1/20 <= Y).
  { apply act_tent. rewrite over1. change (off (1/2 - (0 + INR j * 1))). (destruct j as [|[|[|j]]]; [| | |lia]); cbn [INR]; off_tac. }
  assert (KX : (X <> 0 \/ XS <> 0) /\ (Y <> 0 \/ YS <> 0)).
  { destruct HA as [HA|[a HA]].
    - split; left; intros Z; apply HA; rewrite Z; ring.
    - destruct a; [| |exfalso; apply HA; reflexivity].
      + split; [right|left]; intros Z; apply HA; rewrite Z; ring.
      + split; [left|right]; intros Z; apply HA; rewrite Z; [ring|]. unfold Rdiv. ring. }
  destruct KX as [K1 K2]. specialize (HX K1). specialize (HY K2).
  apply Rle_trans with (1/20 * (1/20)); [lra|]. apply Rmult_le_compat; lra.
Qed.

Lemma sp_rplain G x : grid_init (@ex_gridp R _) sp_bounds = Ok G -> grid_ok ex_gridp G -> rplain (sp_state G x).
Proof.
  intros EG OK. constructor; try reflexivity; try (cbn; lra).
  - exact ex_proper.
  - exact OK.
  - apply (p_C91_ends ex_gridp sp_bounds G ex_proper EG); repeat split.
  - intros ph [<-|[]]. reflexivity.
  - intros ph [<-|[]]. left. reflexivity.
  - destruct (rd_laws _ (fall_ready false G v0 OK)) as (S0 & A & B). exists S0. split; [exact A|].
    intros ph [<-|[]]. apply (B (mkPhase (ex_solid Elastic) 2 v0 [ex_particle (1/2) (1/2) v0 m0; ex_particle (3/2) (5/4) v0 m0])). left. reflexivity.
  - intros ph p [<-|[]] [<-|[]]. eexists. reflexivity.
  - repeat split; reflexivity.
  - left. reflexivity.
Qed.
Lemma sp_open G : grid_init (@ex_gridp R _) sp_bounds = Ok G -> forall a, unwalled (ex_params sp_bounds) G a.
Proof.
  intros EG a k Hk. destruct (p_C10_wall_masks R Num_R ex_gridp sp_bounds G EG) with (k := k) as (A & B & _); [repeat split|exact Hk|].
  unfold passes. change (roughness (pB (ex_params sp_bounds))) with false.
  assert (Z1 : nth k (bh G) false = false).
  { destruct (nth k (bh G) false) eqn:X; [|reflexivity]. destruct (proj1 A eq_refl) as [[_ Y]|[_ Y]]; discriminate. }
  assert (Z2 : nth k (bv G) false = false).
  { destruct (nth k (bv G) false) eqn:X; [|reflexivity]. destruct (proj1 B eq_refl) as [[_ Y]|[[_ Y]|[_ Y]]]; discriminate. }
  rewrite Z1, Z2. destruct a; reflexivity.
Qed.
Lemma sp_firstx G x x' : x = 59/20 /\ x' = 1/20 \/ x = 19/20 /\ x' = 21/20 -> grid_init (@ex_gridp R _) sp_bounds = Ok G ->
  r_run sp_loads 1 (ex_params sp_bounds) G (bodies (sp_L x)) =
  [mkMp (matter_of (ex_solid Elastic)) 2 1 (mkV3 x' (1/2) 0) (mkV3 1 0 0) m0 0 v0 true].
Proof.
  intros HX EG. cbn [r_run]. set (SC := scheme_of (ex_params sp_bounds) (sp_loads (ex_params sp_bounds)) G).
  assert (US := uniform_step SC ex_proper (bodies (sp_L x))).
  specialize (US ltac:(destruct HX as [[-> _]|[-> _]]; repeat constructor; cbn; lra) ltac:(cbn; unR; lra)).
  assert (H : rheavy ex_gridp (1/1000) (bodies (sp_L x))).
  { apply sp_heavy; [cbn; unR; lra|cbn; reflexivity|destruct HX as [[-> _]|[-> _]]; [left|right; right]; reflexivity]. }
  replace (1/1000) with (e_tol SC) in H by (cbn; unfold lit; unR; lra).
  specialize (US H (mkV3 1 0 0) v0).
  specialize (US ltac:(intros q [<-|[]]; cbn; repeat split; unfold v0; f_equal; unR; ring) (fun a => unwalled_open _ _ _ a (sp_open G EG a))).
  cbv zeta in US. rewrite US. cbn [bodies bodies_from sp_L live ph_n ph_pts firstn map app mp_of Nat.eqb].
  cbn [q_mat q_m q_V q_x q_v q_s q_p q_b q_first ex_particle pm pV px vx vy vz comp v3 velocity ph_sol].
  assert (ED : e_dt SC = 1/10) by (cbn; unfold lit; unR; lra).
  rewrite ED. f_equal. f_equal.
  - unfold back. change (e_P SC) with (@ex_gridp R _). cbn [vx vy vz]. destruct ex_w as (_ & _ & ->).
    change (x_m (@ex_gridp R _)) with 0. replace (x_M (@ex_gridp R _)) with 3 by (cbn; unR; lra). cbn. unR.
    destruct HX as [[-> ->]|[-> ->]]; (destruct (Rlt_dec _ _); [lra|]); (destruct (Rlt_dec _ _); try lra); unfold v3, v0; cbn; f_equal; lra.
  - unfold v3. cbn. unR. f_equal; lra.
Qed.
Lemma sp_first G : grid_init (@ex_gridp R _) sp_bounds = Ok G ->
  r_run sp_loads 1 (ex_params sp_bounds) G (bodies (sp_L (59/20))) =
  [mkMp (matter_of (ex_solid Elastic)) 2 1 (mkV3 (1/20) (1/2) 0) (mkV3 1 0 0) m0 0 v0 true].
Proof. intros EG. apply sp_firstx; [left; split; reflexivity|exact EG]. Qed.
Lemma sp_in G : grid_init (@ex_gridp R _) sp_bounds = Ok G -> forall j, (j < 2)%nat ->
  Forall (fun q => in_dom (pG (sP (sp_state G (59/20)))) (q_x q) /\ (p_check (sP (sp_state G (59/20))) = true -> vz (q_x q) = 0))
         (r_run sp_loads j (sP (sp_state G (59/20))) G (bodies (sp_L (59/20)))).
Proof.
  intros EG [|[|j]] Hj; [| |lia].
  - repeat constructor; cbn; try lra; discriminate.
  - change (sP (sp_state G (59/20))) with (ex_params sp_bounds). rewrite (sp_first G EG).
    constructor; [|constructor]. split; [|discriminate]. unfold in_dom. cbn. unR. lra.
Qed.

(** Two steps, the first across the seam. *)
Example x_C91_run : forall fill, exists s : state R, rplain s /\ (forall P, no_surface (sP s) (sp_loads P)) /\
  (forall j, (j < 2)%nat -> Forall (fun q => in_dom (pG (sP s)) (q_x q) /\ (p_check (sP s) = true -> vz (q_x q) = 0))
                                  (r_run sp_loads j (sP s) (sG s) (bodies (sL s)))) /\
  map (fun q => vx (q_x q)) (bodies (sL s)) = [59/20] /\
  map (fun q => vx (q_x q)) (r_run sp_loads 1 (sP s) (sG s) (bodies (sL s))) = [1/20] /\
  exists r, after sp_loads fill 2 s [] = Ok r.
Proof.
  intros fill. destruct (grid_init_ok ex_gridp sp_bounds ex_proper) as (G & EG & OK).
  exists (sp_state G (59/20)). pose proof (sp_rplain G (59/20) EG OK) as HR. pose proof (sp_in G EG) as HI.
  split; [exact HR|]. split; [split; reflexivity|]. split; [exact HI|]. split; [reflexivity|].
  split; [change (sP (sp_state G (59/20))) with (ex_params sp_bounds); cbn [sp_state sG sL]; rewrite (sp_first G EG); reflexivity|].
  destruct (p_C91_run sp_loads fill 2 (sp_state G (59/20)) [] HR ltac:(split; reflexivity) HI) as (s' & tr' & A & _).
  exists (s', tr'). exact A.
Qed.
Example x_C91_step : forall fill, exists s s' : state R, proper (pG (sP s)) /\ grid_ok (pG (sP s)) (sG s) /\
  all_live (sL s) (fun _ p => in_dom (pG (sP s)) (px p)) /\ ring_only (sP s) /\ ends_agree (pG (sP s)) (sG s) /\ no_rub (pB (sP s)) /\
  simple_laws (sL s) /\ own_velocities (sL s) /\ no_surface (sP s) (sp_loads (sP s)) /\ length (bodies (sL s)) = 1%nat /\
  time_march sp_loads fill s = Ok s'.
Proof.
  intros fill. destruct (grid_init_ok ex_gridp sp_bounds ex_proper) as (G & EG & OK).
  pose proof (sp_rplain G (59/20) EG OK) as HR. pose proof (sp_in G EG 0%nat ltac:(lia)) as HI. cbn [r_run] in HI.
  assert (HD := bodies_live (sL (sp_state G (59/20))) (fun x => in_dom (pG (sP (sp_state G (59/20)))) x /\ (p_check (sP (sp_state G (59/20))) = true -> vz x = 0)) 0 HI).
  destruct (march_total sp_loads fill _ (rplain_ready _ HR HD)) as [s' E].
  exists (sp_state G (59/20)), s'. destruct HR. do 2 (split; [assumption|]). split; [intros ph p A C; apply (HD ph p A C)|].
  do 5 (split; [assumption|]). split; [split; reflexivity|]. split; [reflexivity|]. exact E.
Qed.
(** The same, with gravity along the slope. *)
Example x_C92_momentum : forall fill, exists s s' : state R, proper (pG (sP s)) /\ grid_ok (pG (sP s)) (sG s) /\
  all_live (sL s) (fun _ p => in_dom (pG (sP s)) (px p)) /\ ring_only (sP s) /\ ends_agree (pG (sP s)) (sG s) /\ no_rub (pB (sP s)) /\
  simple_laws (sL s) /\ own_velocities (sL s) /\ no_surface (sP s) (fall_loads (sP s)) /\
  unwalled (sP s) (sG s) AX /\ 0 <= p_Mtol (sP s) /\ rheavy (pG (sP s)) (p_Mtol (sP s)) (bodies (sL s)) /\
  psum (sL s) (fun ph p => pm p * comp AX (velocity ph p)) = 2 /\ time_march fall_loads fill s = Ok s'.
Proof.
  intros fill. destruct (grid_init_ok ex_gridp sp_bounds ex_proper) as (G & EG & OK).
  pose proof (sp_rplain G (59/20) EG OK) as HR. pose proof (sp_in G EG 0%nat ltac:(lia)) as HI. cbn [r_run] in HI.
  assert (HD := bodies_live (sL (sp_state G (59/20))) (fun x => in_dom (pG (sP (sp_state G (59/20)))) x /\ (p_check (sP (sp_state G (59/20))) = true -> vz x = 0)) 0 HI).
  destruct (march_total fall_loads fill _ (rplain_ready _ HR HD)) as [s' E].
  exists (sp_state G (59/20)), s'. destruct HR. do 2 (split; [assumption|]). split; [intros ph p A C; apply (HD ph p A C)|].
  do 5 (split; [assumption|]). split; [split; reflexivity|]. split; [exact (sp_open G EG AX)|].
  split; [cbn; unR; lra|]. split; [|split; [|exact E]].
  - replace (p_Mtol (sP (sp_state G (59/20)))) with (1/1000) by (cbn; unfold lit; unR; lra).
    apply sp_heavy; [cbn; unR; lra|reflexivity|left; reflexivity].
  - cbn. unR. lra.
Qed.
(** Two steps of the same body. *)
Example x_C92_spin : forall fill, exists (s s' : state R) tr', rplain s /\ (forall P, no_surface (sP s) (sp_loads P)) /\
  0 <= p_Mtol (sP s) /\ (forall a, unwalled (sP s) (sG s) a) /\ (forall P, gravity_of (sp_loads P) = v0) /\
  (forall q, In q (bodies (sL s)) -> q_v q = mkV3 1 0 0 /\ q_s q = m0 /\ q_p q = 0 /\ (q_first q = false -> q_b q = v0)) /\
  (forall j s1 tr1, (j < 2)%nat -> after sp_loads fill j s [] = Ok (s1, tr1) ->
     all_live (sL s1) (fun _ p => in_dom (pG (sP s)) (px p)) /\ rheavy (pG (sP s)) (p_Mtol (sP s)) (bodies (sL s1))) /\
  after sp_loads fill 2 s [] = Ok (s', tr') /\ length (bodies (sL s)) = 1%nat.
Proof.
  intros fill. destruct (grid_init_ok ex_gridp sp_bounds ex_proper) as (G & EG & OK).
  pose proof (sp_rplain G (59/20) EG OK) as HR. pose proof (sp_in G EG) as HI.
  destruct (p_C91_run sp_loads fill 2 (sp_state G (59/20)) [] HR ltac:(split; reflexivity) HI) as (s' & tr' & A & _).
  exists (sp_state G (59/20)), s', tr'. split; [exact HR|]. split; [split; reflexivity|]. split; [cbn; unR; lra|].
  split; [exact (sp_open G EG)|]. split; [intros; unfold gravity_of, sp_loads, v0; cbn; f_equal; unR; ring|].
  split; [intros q [<-|[]]; cbn; repeat split; discriminate|]. split; [|split; [exact A|reflexivity]].
  intros j s1 tr1 Hj EJ.
  destruct (p_C91_run sp_loads fill j (sp_state G (59/20)) [] HR ltac:(split; reflexivity) ltac:(intros; apply HI; lia)) as (s2 & tr2 & A2 & _ & B2).
  rewrite EJ in A2. injection A2 as <- <-. pose proof (HI j Hj) as HJ.
  change (r_run sp_loads j (sP (sp_state G (59/20))) G (bodies (sp_L (59/20)))) with (r_run sp_loads j (sP (sp_state G (59/20))) (sG (sp_state G (59/20))) (bodies (sL (sp_state G (59/20))))) in HJ.
  rewrite <- B2 in HJ.
  split.
  - intros ph p C D. apply (bodies_live (sL s1) (fun x => in_dom (pG (sP (sp_state G (59/20)))) x /\ (p_check (sP (sp_state G (59/20))) = true -> vz x = 0)) 0 HJ ph p C D).
  - rewrite B2. replace (p_Mtol (sP (sp_state G (59/20)))) with (1/1000) by (cbn; unfold lit; unR; lra).
    destruct j as [|[|j]]; [| |lia].
    + apply sp_heavy; [cbn; unR; lra|reflexivity|left; reflexivity].
    + change (sP (sp_state G (59/20))) with (ex_params sp_bounds). cbn [sp_state sG sL]. rewrite (sp_first G EG).
      apply sp_heavy; [reflexivity|reflexivity|right; left; reflexivity].
Qed.
