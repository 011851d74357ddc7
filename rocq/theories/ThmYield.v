(** * The yield surface of dp and the relaxation of dp_rate: C127, C128. *)
From Coq Require Import ZArith List Bool Arith Lia Reals Lra.
From RecordUpdate Require Import RecordUpdate.
From Verif Require Import State NumR LibR LibList Spec SpecLaws ModelGrid ModelConstit ModelParticle ModelMPList ModelMain ProofsGrid ProofsMap ProofsLaws ProofsHist Concrete ThmLaws ThmDp.
Import ListNotations.
Local Existing Instance Num_R.
Local Open Scope R_scope.

(** Pressure and shear stress of a stress in the plane, and the work of the
    shear stress on a strain. *)
Definition pr2 (s : M2 R) : R := (aa s + bb s) / 2.
Definition qq2 (s : M2 R) : R := sqrt (3 / 2 * ((aa s - pr2 s) ^ 2 + ab s ^ 2 + ba s ^ 2 + (bb s - pr2 s) ^ 2)).
Definition work2 (s e : M2 R) : R :=
  (aa s - pr2 s) * (aa e - pr2 e) + ab s * ab e + ba s * ba e + (bb s - pr2 s) * (bb e - pr2 e).
(** The rate at which the stress would leave the yield surface q = mu p if the
    strain e were elastic. *)
Definition loading (K g mu : R) (e s : M2 R) : R := 3 * g * work2 s e / qq2 s - mu * K * (aa e + bb e).
(** [y] moves as the law says at time [t]. *)
Definition moves (f : M2 R -> M2 R) (y : R -> M2 R) (t : R) : Prop :=
  forall c, In c entries -> derivable_pt_lim (fun v => c (y v)) t (c (f (y t))).

Lemma Rpow_1 x : Rpow 1 x = 1.
Proof. unfold Rpow. destruct (Rlt_dec 0 1); [|lra]. unfold Rpower. rewrite ln_1, Rmult_0_r, exp_0. reflexivity. Qed.

(** The rate of the yield function along a path of stresses. *)
Lemma yield_rate y t mu (d : M2 R) : 0 < qq2 (y t) -> (forall c, In c entries -> derivable_pt_lim (fun v => c (y v)) t (c d)) ->
  derivable_pt_lim (fun v => qq2 (y v) - mu * pr2 (y v)) t (3 / 2 * work2 (y t) d / qq2 (y t) - mu * pr2 d).
Proof.
  intros Q0 D. pose proof (D _ (or_introl eq_refl)) as Da. pose proof (D _ (or_intror (or_introl eq_refl))) as Db.
  pose proof (D _ (or_intror (or_intror (or_introl eq_refl)))) as Dc. pose proof (D _ (or_intror (or_intror (or_intror (or_introl eq_refl))))) as Dd. clear D.
  assert (Dp : derivable_pt_lim (fun v => pr2 (y v)) t (pr2 d)).
  { unfold pr2. replace ((aa d + bb d) / 2) with ((aa d + bb d) * (1 / 2) + (aa (y t) + bb (y t)) * 0) by field.
    apply (derivable_pt_lim_mult (fun v => aa (y v) + bb (y v)) (fun _ => 1 / 2)) with (1 := derivable_pt_lim_plus _ _ _ _ _ Da Dd) || idtac.
    assert (E := derivable_pt_lim_mult _ _ _ _ _ (derivable_pt_lim_plus _ _ _ _ _ Da Dd) (derivable_pt_lim_const (/ 2) t)).
    unfold mult_fct, plus_fct, fct_cte in E. unfold Rdiv. rewrite Rmult_1_l. exact E. }
  assert (SQ : forall f l, derivable_pt_lim f t l -> derivable_pt_lim (fun v => f v ^ 2) t (2 * (f t * l))).
  { intros f l H. pose proof (derivable_pt_lim_mult _ _ _ _ _ H H) as E. unfold mult_fct in E. replace (2 * (f t * l)) with (l * f t + f t * l) by ring.
    intros eps He. destruct (E eps He) as [del Hd]. exists del. intros h H1 H2. specialize (Hd h H1 H2). rewrite <- !Rsqr_pow2. exact Hd. }
  assert (W : derivable_pt_lim (fun v => 3 / 2 * ((aa (y v) - pr2 (y v)) ^ 2 + ab (y v) ^ 2 + ba (y v) ^ 2 + (bb (y v) - pr2 (y v)) ^ 2)) t (3 * work2 (y t) d)).
  { pose proof (SQ _ _ (derivable_pt_lim_minus _ _ _ _ _ Da Dp)) as S1. pose proof (SQ _ _ Db) as S2. pose proof (SQ _ _ Dc) as S3. pose proof (SQ _ _ (derivable_pt_lim_minus _ _ _ _ _ Dd Dp)) as S4.
    pose proof (derivable_pt_lim_scal _ (3 / 2) _ _ (derivable_pt_lim_plus _ _ _ _ _ (derivable_pt_lim_plus _ _ _ _ _ (derivable_pt_lim_plus _ _ _ _ _ S1 S2) S3) S4)) as E.
    unfold mult_real_fct, plus_fct, minus_fct in E. match type of E with derivable_pt_lim _ _ ?l => replace (3 * work2 (y t) d) with l by (unfold work2; field) end. exact E. }
  assert (W0 : 0 < 3 / 2 * ((aa (y t) - pr2 (y t)) ^ 2 + ab (y t) ^ 2 + ba (y t) ^ 2 + (bb (y t) - pr2 (y t)) ^ 2)).
  { unfold qq2 in Q0. destruct (Rlt_dec 0 (3 / 2 * ((aa (y t) - pr2 (y t)) ^ 2 + ab (y t) ^ 2 + ba (y t) ^ 2 + (bb (y t) - pr2 (y t)) ^ 2))) as [|N]; [assumption|]. rewrite sqrt_neg_0 in Q0 by lra. lra. }
  pose proof (derivable_pt_lim_comp _ sqrt _ _ _ W (derivable_pt_lim_sqrt _ W0)) as E. unfold comp in E.
  pose proof (derivable_pt_lim_minus _ _ _ _ _ E (derivable_pt_lim_scal _ mu _ _ Dp)) as F. unfold minus_fct, mult_real_fct in F.
  match type of F with derivable_pt_lim _ _ ?l => replace (3 / 2 * work2 (y t) d / qq2 (y t) - mu * pr2 d) with l end; [exact F|].
  change (sqrt (3 / 2 * ((aa (y t) - pr2 (y t)) ^ 2 + ab (y t) ^ 2 + ba (y t) ^ 2 + (bb (y t) - pr2 (y t)) ^ 2))) with (qq2 (y t)). field. lra.
Qed.

(** What dp_guts gives on the yield surface. *)
Lemma qq2_model (s : M2 R) : nsqrt (n3 * m2sum (m2mulE (m2sub s (m2muls eye2 (trace2 s / n2))) (m2sub s (m2muls eye2 (trace2 s / n2)))) / n2)%num = qq2 s.
Proof.
  unfold qq2, pr2. cbn [nsqrt Num_R]. f_equal. unfold m2sum, m2mulE, m2sub, m2muls, m2map2, m2map, eye2, trace2. cbn [aa ab ba bb]. unR. change (@n3 R _) with 3. change (@n2 R _) with 2. field.
Qed.
Lemma qq2_sq s : qq2 s * qq2 s = 3 / 2 * work2 s s.
Proof. unfold qq2. rewrite sqrt_sqrt; [unfold work2; field|]. pose proof (pow2_ge_0 (aa s - pr2 s)). pose proof (pow2_ge_0 (ab s)). pose proof (pow2_ge_0 (ba s)). pose proof (pow2_ge_0 (bb s - pr2 s)). lra. Qed.

Definition dp_formula (K g mu G r0 r1 Q : R) (e s : M2 R) : M2 R :=
  mkM2 (2 * g * (aa e - pr2 e - 3 / 2 * (aa s - pr2 s) / Q * G * r0) + K * (aa e + bb e + mu * G * r1)) (2 * g * (ab e - 3 / 2 * ab s / Q * G * r0))
       (2 * g * (ba e - 3 / 2 * ba s / Q * G * r0)) (2 * g * (bb e - pr2 e - 3 / 2 * (bb s - pr2 s) / Q * G * r0) + K * (aa e + bb e + mu * G * r1)).
Lemma guts_formula K g n mu beta e s : 0 < pr2 s ->
  fst (dp_guts K g n mu beta e s) =
  dp_formula K g beta (Rabs ((3 * g * pr2 s * work2 s e - K * (qq2 s * qq2 s) * (aa e + bb e)) / (3 * g * mu * (pr2 s * pr2 s) + beta * (qq2 s * qq2 s))))
    (Rpow (qq2 s / (mu * pr2 s)) (n - 1)) (Rpow (qq2 s / (mu * pr2 s)) n) (qq2 s) e s.
Proof.
  intros Hp. unfold dp_guts. cbv zeta. cbn [fst]. rewrite (qq2_model s). generalize (qq2 s). intros Q.
  change (trace2 s / n2)%num with (pr2 s). change (nltb n0 (pr2 s)) with (Rltb 0 (pr2 s)). replace (Rltb 0 (pr2 s)) with true by (symmetry; apply Rltb_true; exact Hp). cbv iota.
  match goal with |- context [nabs (nan0 ?l)] => 
    replace l with ((3 * g * pr2 s * work2 s e - K * (Q * Q) * (aa e + bb e)) / (3 * g * mu * (pr2 s * pr2 s) + beta * (Q * Q))) end.
  - change (nabs (nan0 ?l)) with (Rabs l). generalize (Rabs ((3 * g * pr2 s * work2 s e - K * (Q * Q) * (aa e + bb e)) / (3 * g * mu * (pr2 s * pr2 s) + beta * (Q * Q)))). intros G.
    change (npow (Q / (mu * pr2 s))%num (n - n1)%num) with (Rpow (Q / (mu * pr2 s)) (n - 1)). change (npow (Q / (mu * pr2 s))%num n) with (Rpow (Q / (mu * pr2 s)) n).
    generalize (Rpow (Q / (mu * pr2 s)) (n - 1)). generalize (Rpow (Q / (mu * pr2 s)) n). intros r1 r0. unfold dp_formula. destruct s as [a b c d], e as [ea eb ec ed].
    generalize (pr2 (mkM2 a b c d)). intros p. cbv [m2add m2sub m2muls m2divs m2scale m2map2 m2map eye2 trace2 aa ab ba bb pr2]. unR. change (@n3 R _) with 3. change (@n2 R _) with 2. unfold Rdiv. generalize (/ Q). intros iQ. apply m2_eq; cbn [aa ab ba bb]; field.
  - destruct s as [a b c d], e as [ea eb ec ed]. generalize (pr2 (mkM2 a b c d)) as p. intros p.
    unfold m2sum, m2mulE, m2sub, m2muls, m2divs, m2scale, m2map2, m2map, eye2, trace2, nsq. cbn [aa ab ba bb]. unR. change (@n3 R _) with 3. change (@n2 R _) with 2.
    unfold work2. f_equal. f_equal. cbn [aa ab ba bb]. unfold pr2. cbn [aa bb]. field.
Qed.
Lemma guts_yield K g n mu e s : 0 < mu -> 0 < g -> 0 < pr2 s -> qq2 s = mu * pr2 s ->
  let G := Rabs (loading K g mu e s) / (3 * g + mu ^ 2) in let d := fst (dp_guts K g n mu mu e s) in
  pr2 d = K * (aa e + bb e + mu * G) /\ work2 s d = 2 * g * (work2 s e - qq2 s * G).
Proof.
  intros Hm Hg Hp Hq G d. unfold d. rewrite (guts_formula K g n mu mu e s Hp). clear d. pose proof (qq2_sq s) as QS.
  assert (EG : Rabs ((3 * g * pr2 s * work2 s e - K * (qq2 s * qq2 s) * (aa e + bb e)) / (3 * g * mu * (pr2 s * pr2 s) + mu * (qq2 s * qq2 s))) = G).
  { unfold G. assert (M2 : 0 < mu ^ 2) by (apply pow_lt; lra).
    replace ((3 * g * pr2 s * work2 s e - K * (qq2 s * qq2 s) * (aa e + bb e)) / (3 * g * mu * (pr2 s * pr2 s) + mu * (qq2 s * qq2 s))) with (loading K g mu e s / (3 * g + mu ^ 2)).
    - unfold Rdiv. rewrite Rabs_mult. f_equal. apply Rabs_pos_eq. left. apply Rinv_0_lt_compat. lra.
    - unfold loading. rewrite Hq. generalize dependent (pr2 s). intros p Hp _. field. split; [|repeat split; lra].
      replace (3 * g * mu * (p * p) + mu * (mu * p * (mu * p))) with (mu * (p * p) * (3 * g + mu ^ 2)) by ring. apply Rgt_not_eq. repeat apply Rmult_lt_0_compat; lra. }
  rewrite EG. replace (qq2 s / (mu * pr2 s)) with 1 by (rewrite Hq; field; lra). rewrite !Rpow_1. clear EG. clearbody G.
  assert (Q0 : 0 < qq2 s) by (rewrite Hq; apply Rmult_lt_0_compat; lra). clear Hq. generalize dependent (qq2 s). intros Q QS Q0.
  split.
  - unfold dp_formula. unfold pr2 at 1. cbn [aa bb]. unfold pr2. field. lra.
  - assert (W : work2 s (dp_formula K g mu G 1 1 Q e s) = 2 * g * (work2 s e - 3 / 2 * work2 s s / Q * G)) by (unfold dp_formula, work2, pr2; cbn [aa ab ba bb]; field; lra).
    rewrite W. replace (3 / 2 * work2 s s / Q) with Q; [ring|]. rewrite <- QS. field. lra.
Qed.

(** On the yield surface q = mu p the yield function changes at exactly this
    rate under the law dp, whatever the exponent s. *)
Lemma p_C127_rate : forall K g n mu e y t, 0 < mu -> 0 < g -> 0 < pr2 (y t) -> qq2 (y t) = mu * pr2 (y t) ->
  moves (fun s => fst (dp_guts K g n mu mu e s)) y t ->
  derivable_pt_lim (fun v => qq2 (y v) - mu * pr2 (y v)) t
    (loading K g mu e (y t) - (3 * g + mu ^ 2 * K) * (Rabs (loading K g mu e (y t)) / (3 * g + mu ^ 2))).
Proof.
  intros K g n mu e y t Hm Hg Hp Hq M. assert (Q0 : 0 < qq2 (y t)) by (rewrite Hq; apply Rmult_lt_0_compat; lra).
  destruct (guts_yield K g n mu e (y t) Hm Hg Hp Hq) as [A B]. pose proof (yield_rate y t mu _ Q0 M) as Y. cbv zeta in A, B. rewrite A, B in Y.
  match type of Y with derivable_pt_lim _ _ ?l => match goal with |- derivable_pt_lim _ _ ?r => replace r with l; [exact Y|] end end.
  set (G := Rabs _ / _). unfold loading. field. lra.
Qed.
(** Under loading the stress stays on the yield surface only if K is 1: the
    denominator of the multiplier (constit.py:179) lacks a factor K.  For the
    K of any real material the point leaves the yield surface inwards, however
    hard it is sheared. *)
Lemma p_C127_consistent_refuted : forall K g n mu e y t, 0 < mu -> 0 < g -> 0 < pr2 (y t) -> qq2 (y t) = mu * pr2 (y t) ->
  moves (fun s => fst (dp_guts K g n mu mu e s)) y t -> 0 < loading K g mu e (y t) ->
  exists l, derivable_pt_lim (fun v => qq2 (y v) - mu * pr2 (y v)) t l /\ (l = 0 <-> K = 1) /\ (1 < K -> l < 0) /\ (K < 1 -> 0 < l).
Proof.
  intros K g n mu e y t Hm Hg Hp Hq M HX. pose proof (p_C127_rate K g n mu e y t Hm Hg Hp Hq M) as D. set (X := loading K g mu e (y t)) in *.
  rewrite (Rabs_pos_eq X) in D by lra. eexists. split; [exact D|].
  assert (M2 : 0 < mu ^ 2) by (apply pow_lt; lra). assert (N : 0 < 3 * g + mu ^ 2) by lra. assert (F : X - (3 * g + mu ^ 2 * K) * (X / (3 * g + mu ^ 2)) = X * mu ^ 2 / (3 * g + mu ^ 2) * (1 - K)) by (field; lra). rewrite F.
  assert (C : 0 < X * mu ^ 2 / (3 * g + mu ^ 2)) by (apply Rdiv_lt_0_compat; [apply Rmult_lt_0_compat; assumption|exact N]). set (c := X * mu ^ 2 / (3 * g + mu ^ 2)) in *. split; [split|split]; intros HK.
  - apply Rmult_integral in HK. destruct HK; lra.
  - rewrite HK. ring.
  - clearbody c. nra.
  - clearbody c. nra.
Qed.
Lemma affine_moves (s d : M2 R) t : moves (fun _ => d) (fun v => m2add s (m2scale v d)) t.
Proof.
  intros c Hc. assert (E : forall v, c (m2add s (m2scale v d)) = c s + v * c d) by (intros v; rewrite ent_add, ent_scale by exact Hc; reflexivity).
  intros eps He. exists (mkposreal 1 Rlt_0_1). intros h Hh _. rewrite !E. replace ((c s + (t + h) * c d - (c s + t * c d)) / h - c d) with 0 by (field; exact Hh). rewrite Rabs_R0. exact He.
Qed.
(** A point at yield in pure shear, with a K of 1000: q/p falls although the
    point is sheared on. *)
Example x_C127_consistent_refuted : exists K g n mu e y, 0 < mu /\ 0 < g /\ 0 < pr2 (y 0) /\ qq2 (y 0) = mu * pr2 (y 0) /\
  moves (fun s => fst (dp_guts K g n mu mu e s)) y 0 /\ 0 < loading K g mu e (y 0) /\ 1 < K.
Proof.
  assert (S3 : 0 < sqrt 3) by (apply sqrt_lt_R0; lra). set (s := mkM2 3 0 0 1). set (e := mkM2 1 0 0 (-1)). set (mu := sqrt 3 / 2).
  exists 1000, 1, 2, mu, e, (fun v => m2add s (m2scale v (fst (dp_guts 1000 1 2 mu mu e s)))).
  assert (Y0 : m2add s (m2scale 0 (fst (dp_guts 1000 1 2 mu mu e s))) = s) by (apply m2_eq; cbn -[dp_guts]; ring).
  assert (P0 : pr2 s = 2) by (unfold pr2; cbn; field). assert (Q0 : qq2 s = sqrt 3) by (unfold qq2; rewrite P0; cbn; f_equal; field).
  cbv beta. rewrite Y0, P0, Q0. split; [unfold mu; lra|]. split; [lra|]. split; [lra|]. split; [unfold mu; field|]. split; [|split; [|lra]].
  - intros c Hc. cbv beta. rewrite Y0. exact (affine_moves s _ 0 c Hc).
  - unfold loading. rewrite Q0. unfold work2. rewrite P0. cbn [aa ab ba bb s e]. unfold pr2. cbn [aa bb e]. replace (3 * 1 * ((3 - 2) * (1 - (1 + -1) / 2) + 0 * 0 + 0 * 0 + (1 - 2) * (-1 - (1 + -1) / 2)) / sqrt 3 - mu * 1000 * (1 + -1)) with (6 / sqrt 3) by (field; lra).
    apply Rdiv_lt_0_compat; lra.
Qed.

(** ** C128: dp_rate *)
(** The stress in the plane, positive in compression. *)
Definition squeeze (MP : particle R) : M2 R := mkM2 (- xx (pstress MP)) (- xy (pstress MP)) (- yx (pstress MP)) (- yy (pstress MP)).
Definition gain2 (MP : particle R) : M2 R := mkM2 (- xx (pdstress MP)) (- xy (pdstress MP)) (- yx (pdstress MP)) (- yy (pdstress MP)).
Definition strain2 (MP : particle R) : M2 R := mkM2 (- xx (pdstrain MP)) (- xy (pdstrain MP)) (- yx (pdstrain MP)) (- yy (pdstrain MP)).
Record rate_mat (So : solid R) (K g mu beta ts : R) : Prop := mkRateMat {
  rm_K : s_K So = Some K; rm_g : s_G So = Some g; rm_mu : s_mu So = Some mu; rm_beta : s_beta So = Some beta; rm_ts : s_t_star So = Some ts }.
Lemma rate_guts K g mu beta ts e s :
  let F := (if Rlt_dec 0 (qq2 s - mu * pr2 s) then qq2 s - mu * pr2 s else 0) / (pr2 s * ts) in
  fst (dp_rate_guts K g mu beta ts e s) = dp_formula K g 1 1 F (F * (beta * qq2 s / (mu * pr2 s))) (qq2 s) e s.
Proof.
  intros F. unfold dp_rate_guts. cbv zeta. cbn [fst]. rewrite (qq2_model s). subst F.
  change (trace2 s / n2)%num with (pr2 s). generalize (qq2 s). intros Q.
  match goal with |- context [(?l * nofb (nltb n0 ?l))%num] => replace (l * nofb (nltb n0 l))%num with (if Rlt_dec 0 (Q - mu * pr2 s) then Q - mu * pr2 s else 0) end.
  - generalize (if Rlt_dec 0 (Q - mu * pr2 s) then Q - mu * pr2 s else 0). intros G0. unfold dp_formula. generalize (pr2 s). intros p. destruct s as [a b c d'], e as [ea eb ec ed].
    cbv [m2add m2sub m2muls m2divs m2scale m2map2 m2map eye2 trace2 aa ab ba bb pr2]. unR. change (@n3 R _) with 3. change (@n2 R _) with 2. unfold Rdiv. rewrite !Rinv_mult. generalize (/ Q), (/ p), (/ mu), (/ ts). intros iQ ip im it.
    apply m2_eq; cbn [aa ab ba bb]; field.
  - change (nltb n0 (Q - mu * pr2 s)%num) with (Rltb 0 (Q - mu * pr2 s)). destruct (Rlt_dec _ _) as [L|L].
    + replace (Rltb 0 (Q - mu * pr2 s)) with true by (symmetry; apply Rltb_true; exact L). cbn. unR. ring.
    + replace (Rltb 0 (Q - mu * pr2 s)) with false by (symmetry; apply Rltb_false; lra). cbn. unR. ring.
Qed.
Lemma rate_form P S0 So MP G MP' G' K g mu beta ts : rate_mat S0 K g mu beta ts -> dp_rate P S0 So MP G = Ok (MP', G') ->
  let s := squeeze MP in let e := strain2 MP in let F := (if Rlt_dec 0 (qq2 s - mu * pr2 s) then qq2 s - mu * pr2 s else 0) / (pr2 s * ts) in
  gain2 MP' = dp_formula K g 1 1 F (F * (beta * qq2 s / (mu * pr2 s))) (qq2 s) e s.
Proof.
  intros [HK Hg Hm Hb Ht] E s e F. unfold dp_rate in E. rewrite HK, Hg, Hm, Hb, Ht in E. cbn [attr bind] in E.
  change (m2map nopp (block2 (pstress MP))) with s in E. change (m2map nopp (block2 (pdstrain MP))) with e in E.
  destruct (dp_rate_guts K g mu beta ts e s) as [d [p1 q1]] eqn:ED. pbinds E. injection E as <- <-.
  transitivity d. { transitivity (m2map Ropp (m2map Ropp d)); [reflexivity|]. destruct d. unfold m2map. cbn. rewrite !Ropp_involutive. reflexivity. }
  apply (f_equal fst) in ED. cbn [fst] in ED. rewrite <- ED. apply rate_guts.
Qed.

(** Within the yield surface dp_rate is elastic: K times the volume change and
    2G times the shear, and nothing else. *)
Lemma p_C128_elastic : forall P S0 So MP G MP' G' K g mu beta ts, rate_mat S0 K g mu beta ts -> dp_rate P S0 So MP G = Ok (MP', G') ->
  qq2 (squeeze MP) <= mu * pr2 (squeeze MP) ->
  let tr := xx (pdstrain MP) + yy (pdstrain MP) in
  xx (pdstress MP') = 2 * g * (xx (pdstrain MP) - tr / 2) + K * tr /\ xy (pdstress MP') = 2 * g * xy (pdstrain MP) /\
  yx (pdstress MP') = 2 * g * yx (pdstrain MP) /\ yy (pdstress MP') = 2 * g * (yy (pdstrain MP) - tr / 2) + K * tr.
Proof.
  intros P S0 So MP G MP' G' K g mu beta ts HM E H tr. pose proof (rate_form _ _ _ _ _ _ _ _ _ _ _ _ HM E) as F. cbv zeta in F. destruct (Rlt_dec _ _) as [L|_]; [lra|].
  replace (0 / (pr2 (squeeze MP) * ts)) with 0 in F by (unfold Rdiv; ring). unfold gain2, dp_formula in F. injection F as F1 F2 F3 F4. unfold strain2, pr2 in F1, F2, F3, F4. cbn [aa ab ba bb] in F1, F2, F3, F4. unfold tr. repeat split; lra.
Qed.
(** Beyond it, a point that is not strained at all loses shear stress and gains
    pressure in every step, by amounts in which the time step does not occur. *)
Lemma p_C128_rest : forall P S0 So MP G MP' G' K g mu beta ts, rate_mat S0 K g mu beta ts -> dp_rate P S0 So MP G = Ok (MP', G') ->
  strain2 MP = mkM2 0 0 0 0 -> 0 < mu -> 0 < ts -> 0 < pr2 (squeeze MP) -> mu * pr2 (squeeze MP) < qq2 (squeeze MP) ->
  let over := (qq2 (squeeze MP) - mu * pr2 (squeeze MP)) / (pr2 (squeeze MP) * ts) in
  pr2 (gain2 MP') = K * beta * (qq2 (squeeze MP) / (mu * pr2 (squeeze MP))) * over /\ work2 (squeeze MP) (gain2 MP') = - (2 * g * qq2 (squeeze MP) * over).
Proof.
  intros P S0 So MP G MP' G' K g mu beta ts HM E H0 Hm Ht Hp Ho over. pose proof (rate_form _ _ _ _ _ _ _ _ _ _ _ _ HM E) as F. cbv zeta in F. rewrite H0 in F. destruct (Rlt_dec _ _) as [L|N]; [|lra]. rewrite F. fold over.
  pose proof (qq2_sq (squeeze MP)) as QS. set (s := squeeze MP) in *. clearbody over s. assert (Q0 : 0 < qq2 s) by (assert (0 < mu * pr2 s) by (apply Rmult_lt_0_compat; assumption); lra). clear Ho L F. generalize dependent (qq2 s). intros Q QS Q0. split.
  - unfold dp_formula. unfold pr2 at 1. cbn [aa bb]. unfold pr2. cbn [aa bb]. unfold pr2 in Hp. field. lra.
  - assert (W : forall r, work2 s (dp_formula K g 1 1 over r Q (mkM2 0 0 0 0) s) = - (2 * g * (3 / 2 * work2 s s / Q) * over)) by (intros r; unfold dp_formula, work2, pr2; cbn [aa ab ba bb]; field; lra).
    rewrite W. replace (3 / 2 * work2 s s / Q) with Q; [ring|]. rewrite <- QS. field. lra.
Qed.
(** So the speed of the relaxation is not that of the material: with two time
    steps, the stress lost per unit of time differs by the ratio of the steps. *)
Lemma p_C128_timestep_refuted : forall P S0 So MP G MP1 G1 MP2 G2 K g mu beta ts dt1 dt2, rate_mat S0 K g mu beta ts ->
  dp_rate (P <| p_dt := dt1 |>) S0 So MP G = Ok (MP1, G1) -> dp_rate (P <| p_dt := dt2 |>) S0 So MP G = Ok (MP2, G2) ->
  strain2 MP = mkM2 0 0 0 0 -> 0 < g -> 0 < mu -> 0 < ts -> 0 < pr2 (squeeze MP) -> mu * pr2 (squeeze MP) < qq2 (squeeze MP) -> 0 < dt1 -> 0 < dt2 ->
  pdstress MP1 = pdstress MP2 /\ (work2 (squeeze MP) (gain2 MP1) / dt1 = work2 (squeeze MP) (gain2 MP2) / dt2 <-> dt1 = dt2).
Proof.
  intros P S0 So MP G MP1 G1 MP2 G2 K g mu beta ts dt1 dt2 HM E1 E2 H0 Hg Hm Ht Hp Ho D1 D2.
  assert (EQ : pdstress MP1 = pdstress MP2).
  { unfold dp_rate in E1, E2. destruct HM as [HK Hg' Hm' Hb Ht']. rewrite HK, Hg', Hm', Hb, Ht' in E1, E2. cbn [attr bind] in E1, E2.
    destruct (dp_rate_guts _ _ _ _ _ _ _) as [d [p1 q1]]. pbinds E1. pbinds E2. injection E1 as <- <-. injection E2 as <- <-. reflexivity. }
  split; [exact EQ|]. destruct (p_C128_rest _ _ _ _ _ _ _ _ _ _ _ _ HM E1 H0 Hm Ht Hp Ho) as [_ W].
  assert (GE : gain2 MP2 = gain2 MP1) by (unfold gain2; rewrite EQ; reflexivity). rewrite GE, W. set (s := squeeze MP) in *.
  assert (O : 0 < (qq2 s - mu * pr2 s) / (pr2 s * ts)) by (apply Rdiv_lt_0_compat; [lra|apply Rmult_lt_0_compat; lra]). set (o := _ / (pr2 s * ts)) in *. assert (Q0 : 0 < qq2 s) by (assert (0 < mu * pr2 s) by (apply Rmult_lt_0_compat; assumption); lra).
  clearbody o. assert (C : 0 < 2 * g * qq2 s * o) by (apply Rmult_lt_0_compat; [|exact O]; apply Rmult_lt_0_compat; lra). set (c := 2 * g * qq2 s * o) in *. split; intros HD; [|rewrite HD; reflexivity].
  assert (X : - c * dt2 = - c * dt1). { apply (f_equal (fun z => z * dt1 * dt2)) in HD. unfold Rdiv in HD. replace (- c * / dt1 * dt1 * dt2) with (- c * dt2) in HD by (field; lra). rewrite HD. field. lra. }
  apply Rmult_eq_reg_l in X; lra.
Qed.

Definition stiff_grid : grid R := let l := repeat 0 12 in mkGrid 1 1 l l l [] [] [] [] l [] [] [] [] [] l l l l l l l l l l l l l l l [] [] [] [].
Definition sheared (e : M3 R) : particle R := ex_particle (1 / 2) (1 / 2) v0 (mkM3 (-3) 0 0 0 (-1) 0 0 0 0) <| pdstrain := e |>.
Lemma rate_runs dt e : exists r, dp_rate (ex_params ex_bounds <| p_dt := dt |>) (ex_solid DpRate) (ex_solid DpRate) (sheared e) stiff_grid = Ok r.
Proof.
  unfold dp_rate. cbn [ex_solid s_mu s_G s_t_star s_K s_beta attr bind]. destruct (dp_rate_guts _ _ _ _ _ _ _) as [d [p1 q1]].
  match goal with |- context [visualise ?P ?M ?f ?G] => destruct (visualise_total 12 P M f G) as [G' EV] end.
  - intros []; reflexivity.
  - intros r Hr. change (pnstar _) with (pnstar (sheared e)).
    change (pnstar (sheared e)) with (@pnstar R (ex_particle (1 / 2) (1 / 2) v0 (mkM3 (-3) 0 0 0 (-1) 0 0 0 0))). cbn [pnstar ex_particle].
    do 4 (destruct r as [|r]; [eexists; vm_compute; reflexivity|]). lia.
  - rewrite EV. cbn [bind]. eauto.
Qed.
(** More shear stress than the surface allows, no strain, and any time step. *)
Example x_C128_timestep_refuted : let MP := sheared (mkM3 0 0 0 0 0 0 0 0 0) in
  rate_mat (ex_solid DpRate) 3 2 (1 / 2) 0 1 /\
  (forall dt, exists MP' G', dp_rate (ex_params ex_bounds <| p_dt := dt |>) (ex_solid DpRate) (ex_solid DpRate) MP stiff_grid = Ok (MP', G')) /\
  strain2 MP = mkM2 0 0 0 0 /\ 0 < pr2 (squeeze MP) /\ 1 / 2 * pr2 (squeeze MP) < qq2 (squeeze MP).
Proof.
  intros MP. split; [constructor; try reflexivity; cbn; f_equal; unfold nhalf, lit; cbn; unR; field|]. split.
  - intros dt. destruct (rate_runs dt (mkM3 0 0 0 0 0 0 0 0 0)) as [[MP' G'] E]. exists MP', G'. exact E.
  - assert (P0 : pr2 (squeeze MP) = 2) by (unfold pr2; cbn; field). split; [unfold strain2; cbn; rewrite Ropp_0; reflexivity|]. rewrite P0. split; [lra|].
    unfold qq2. rewrite P0. cbn. replace (3 / 2 * _) with 3 by field. rewrite <- sqrt_1 at 1. replace (sqrt 1 / 2 * 2) with (sqrt 1) by field. apply sqrt_lt_1; lra.
Qed.
(** A small shear stress, in an elastic strain. *)
Example x_C128_elastic : let MP := sheared (mkM3 1 0 0 0 2 0 0 0 0) <| pstress := mkM3 (-1) 0 0 0 (-1) 0 0 0 0 |> in
  rate_mat (ex_solid DpRate) 3 2 (1 / 2) 0 1 /\ qq2 (squeeze MP) <= 1 / 2 * pr2 (squeeze MP).
Proof.
  intros MP. split; [constructor; try reflexivity; cbn; f_equal; unfold nhalf, lit; cbn; unR; field|].
  assert (P0 : pr2 (squeeze MP) = 1) by (unfold pr2; cbn; field). unfold qq2. rewrite P0. cbn. replace (3 / 2 * _) with 0 by field. rewrite sqrt_0. lra.
Qed.
