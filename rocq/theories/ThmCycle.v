(** * Elastic points that are strained back and forth: C134. *)
From Coq Require Import ZArith List Bool Arith Lia Reals Lra.
From RecordUpdate Require Import RecordUpdate.
From Verif Require Import State NumR LibR LibList Spec SpecLaws ModelGrid ModelConstit ModelParticle ModelMPList ModelMain ProofsGrid ProofsMap ProofsLaws ProofsP2G SpecStep ProofsStep ProofsHist Concrete ThmMapping ThmLaws.
Import ListNotations.
Local Existing Instance Num_R.
Local Open Scope R_scope.

Definition diag (a b c : R) : M3 R := mkM3 a 0 0 0 b 0 0 0 c.
(** Twice the rate of strain is what the code stores as L. *)
Lemma strain_L P G p p' : update_strain P G p = Ok p' -> times (p_dt P) (pL p') = times 2 (pdstrain p') /\ pstrain p' = plus3 (pstrain p) (pdstrain p').
Proof.
  unfold update_strain. intros E.
  destruct (four P (pnstar p) _ (m0, m0)) as [[d Lb]|] eqn:F; [|discriminate]. injection E as <-. cbn [pL pdstrain pstrain set].
  split; [|reflexivity].
  refine (four_ind P _ _ (fun _ s => times (p_dt P) (snd s) = times 2 (fst s)) _ _ _ _ F).
  - apply m3_ext; cbn; ring.
  - intros r [a b] [a' b'] _ IH E. cbn [fst snd] in *. pbinds E. injection E as <- <-.
    set (L := outer a0 (Gr p r)). set (LT := outer (Gr p r) a0). clearbody L LT.
    pose proof (f_equal xx IH) as I1. pose proof (f_equal xy IH) as I2. pose proof (f_equal xz IH) as I3. pose proof (f_equal yx IH) as I4. pose proof (f_equal yy IH) as I5. pose proof (f_equal yz IH) as I6. pose proof (f_equal zx IH) as I7. pose proof (f_equal zy IH) as I8. pose proof (f_equal zz IH) as I9. cbn in *.
    apply m3_ext; cbn; unR; change (@nhalf R _) with (/ 2); lra.
Qed.

Lemma el_step P H p q S0 So ip G r G' K g e a b c : update_strain P H p = Ok q -> update_stress P S0 So ip q G = Ok (r, G') -> s_law So = Elastic -> s_K So = Some K -> s_G So = Some g ->
  pdstrain q = diag e 0 0 -> pstress p = diag a b c ->
  pstress r = diag (a + (K + 4 / 3 * g) * e - 4 * e * a) (b + (K - 2 / 3 * g) * e) (c + (K - 2 / 3 * g) * e) /\ pstrain r = plus3 (pstrain p) (diag e 0 0).
Proof.
  intros E1 E2 EL EK EG ED ES. destruct (strain_L _ _ _ _ E1) as (HL & HS). pose proof (strain_frame _ _ _ _ E1) as F1. apply (f_equal pstress) in F1. cbn [pstress set] in F1.
  unfold update_stress in E2. destruct (apply_law P S0 So ip q G) as [[q2 G2]|] eqn:EA; [|discriminate]. cbn [bind] in E2. injection E2 as <- _.
  pose proof (law_effect _ _ _ _ _ _ _ _ EA) as (LF & _ & _ & _ & ST). rewrite EL in ST. specialize (ST ltac:(discriminate)).
  pose proof (f_equal pL LF) as LL. cbn [pL set] in LL. pose proof (f_equal pstrain LF) as LE. cbn [pstrain set] in LE. clear LF.
  unfold apply_law in EA. rewrite EL in EA. destruct (elastic_out _ _ _ _ _ _ EA) as (K' & g' & E3 & E4 & DS). replace K' with K in * by congruence. replace g' with g in * by congruence. clear EA.
  cbn [pstress pstrain set]. rewrite LE, HS, ED. split; [|reflexivity]. rewrite DS, ST, LL, F1, ED, ES. rewrite ED in HL. set (L := pL q) in *. clearbody L. set (dt := p_dt P) in *. clearbody dt.
  pose proof (f_equal xx HL) as I1. pose proof (f_equal xy HL) as I2. pose proof (f_equal xz HL) as I3. pose proof (f_equal yx HL) as I4. pose proof (f_equal yy HL) as I5. pose proof (f_equal yz HL) as I6. pose proof (f_equal zx HL) as I7. pose proof (f_equal zy HL) as I8. pose proof (f_equal zz HL) as I9. cbn in I1, I2, I3, I4, I5, I6, I7, I8, I9. clear - I1 I2 I3 I4 I5 I6 I7 I8 I9.
  destruct L as [l1 l2 l3 l4 l5 l6 l7 l8 l9]. cbn in *.
  apply m3_ext; cbn; unfold tr3; cbn; unR; cbn.
  - transitivity (a + (K * (e + 0 + 0) + 2 * g * (e - (e + 0 + 0) / 3) - 2 * a * (dt * l1))); [field|]. rewrite I1. field.
  - transitivity (- (b * (dt * l2) + a * (dt * l2))); [field|]. rewrite I2. field.
  - transitivity (- (c * (dt * l3) + a * (dt * l3))); [field|]. rewrite I3. field.
  - transitivity (- (b * (dt * l4) + a * (dt * l4))); [field|]. rewrite I4. field.
  - transitivity (b + (K * (e + 0 + 0) + 2 * g * (0 - (e + 0 + 0) / 3) - 2 * b * (dt * l5))); [field|]. rewrite I5. field.
  - transitivity (- (c * (dt * l6) + b * (dt * l6))); [field|]. rewrite I6. field.
  - transitivity (- (c * (dt * l7) + a * (dt * l7))); [field|]. rewrite I7. field.
  - transitivity (- (c * (dt * l8) + b * (dt * l8))); [field|]. rewrite I8. field.
  - transitivity (c + (K * (e + 0 + 0) + 2 * g * (0 - (e + 0 + 0) / 3) - 2 * c * (dt * l9))); [field|]. rewrite I9. field.
Qed.

(** A history in which the point is stretched by [e] along x in one step and
    pushed back in the next, over and over. *)
Definition cycled (Pn : nat -> params R) (S0 So : solid R) (ip : nat) (e : R) (p q : nat -> particle R) : Prop :=
  (forall j, exists H G G', update_strain (Pn j) H (p j) = Ok (q j) /\ update_stress (Pn j) S0 So ip (q j) G = Ok (p (j + 1)%nat, G')) /\
  (forall j, pdstrain (q j) = diag (if Nat.even j then e else - e) 0 0).
(** ** C134 *)
(** The strain is zero after every cycle; the stress is not: it grows towards a
    quarter of the stiffness. *)
Lemma p_C134_ratchet : forall Pn S0 So ip e p q K g n, s_law So = Elastic -> s_K So = Some K -> s_G So = Some g ->
  cycled Pn S0 So ip e p q -> pstress (p 0%nat) = diag 0 0 0 -> pstrain (p 0%nat) = diag 0 0 0 ->
  pstrain (p (2 * n)%nat) = diag 0 0 0 /\ pstress (p (2 * n)%nat) = diag ((1 - (1 - 16 * (e * e)) ^ n) * ((K + 4 / 3 * g) / 4)) 0 0.
Proof.
  intros Pn S0 So ip e p q K g n EL EK EG (HS & HD) HT HE. induction n as [|n (I1 & I2)].
  { change (2 * 0)%nat with 0%nat. rewrite HT, HE. split; [reflexivity|]. apply m3_ext; cbn; field. }
  assert (EV : Nat.even (2 * n) = true) by (rewrite Nat.even_spec; exists n; lia). assert (OD : Nat.even (2 * n + 1) = false) by (rewrite <- Nat.negb_odd; replace (Nat.odd (2 * n + 1)) with true; [reflexivity|symmetry; rewrite Nat.odd_spec; exists n; lia]).
  destruct (HS (2 * n)%nat) as (H & G & G' & A1 & A2). pose proof (HD (2 * n)%nat) as A3. rewrite EV in A3.
  destruct (el_step _ _ _ _ _ _ _ _ _ _ _ _ _ _ _ _ A1 A2 EL EK EG A3 I2) as (B1 & B2).
  destruct (HS (2 * n + 1)%nat) as (H' & J & J' & C1 & C2). pose proof (HD (2 * n + 1)%nat) as C3. rewrite OD in C3.
  destruct (el_step _ _ _ _ _ _ _ _ _ _ _ _ _ _ _ _ C1 C2 EL EK EG C3 B1) as (D1 & D2).
  replace (2 * S n)%nat with (2 * n + 1 + 1)%nat by lia. rewrite D1, D2, B2, I1. split; [apply m3_ext; cbn; ring|]. cbn [pow]. set (w := (1 - 16 * (e * e)) ^ n). clearbody w. apply m3_ext; cbn; field.
Qed.
(** So an elastic point that is back at its strain is not back at its stress. *)
Lemma p_C134_hooke_refuted : forall Pn S0 So ip e p q K g n, s_law So = Elastic -> s_K So = Some K -> s_G So = Some g ->
  cycled Pn S0 So ip e p q -> pstress (p 0%nat) = diag 0 0 0 -> pstrain (p 0%nat) = diag 0 0 0 ->
  e <> 0 -> 16 * (e * e) < 2 -> 0 < K + 4 / 3 * g -> (0 < n)%nat -> ~ hooke K g (pstrain (p (2 * n)%nat)) (pstress (p (2 * n)%nat)).
Proof.
  intros Pn S0 So ip e p q K g n EL EK EG HC HT HE He H2 HM Hn (Q & _). destruct (p_C134_ratchet _ _ _ _ _ _ _ _ _ n EL EK EG HC HT HE) as (A & B). rewrite A, B in Q. unfold tr3 in Q. cbn in Q.
  assert (0 < e * e) by (apply Rsqr_pos_lt; exact He).
  assert (L : Rabs ((1 - 16 * (e * e)) ^ n) < 1). { rewrite <- RPow_abs. apply pow_lt_1_compat; [split; [apply Rabs_pos|apply Rabs_def1; lra]|exact Hn]. }
  apply Rabs_def2 in L. assert (0 < (1 - (1 - 16 * (e * e)) ^ n) * ((K + 4 / 3 * g) / 4)) by (apply Rmult_lt_0_compat; lra). lra.
Qed.
(** However small the strain, enough cycles bring the stress near a quarter of
    the stiffness. *)
Lemma p_C134_limit : forall Pn S0 So ip e p q K g tol, s_law So = Elastic -> s_K So = Some K -> s_G So = Some g ->
  cycled Pn S0 So ip e p q -> pstress (p 0%nat) = diag 0 0 0 -> pstrain (p 0%nat) = diag 0 0 0 ->
  e <> 0 -> 16 * (e * e) < 2 -> 0 < tol -> exists m, forall n, (m <= n)%nat -> Rabs (xx (pstress (p (2 * n)%nat)) - (K + 4 / 3 * g) / 4) < tol.
Proof.
  intros Pn S0 So ip e p q K g tol EL EK EG HC HT HE He H2 Ht. assert (0 < e * e) by (apply Rsqr_pos_lt; exact He). set (M := (K + 4 / 3 * g) / 4).
  destruct (pow_lt_1_zero (1 - 16 * (e * e)) ltac:(apply Rabs_def1; lra) (tol / (Rabs M + 1))) as [m Hm]; [apply Rdiv_lt_0_compat; pose proof (Rabs_pos M); lra|].
  exists m. intros n Hn. specialize (Hm n ltac:(lia)). destruct (p_C134_ratchet _ _ _ _ _ _ _ _ _ n EL EK EG HC HT HE) as (_ & B). rewrite B. cbn [xx diag]. fold M.
  replace ((1 - (1 - 16 * (e * e)) ^ n) * M - M) with (- ((1 - 16 * (e * e)) ^ n * M)) by ring. rewrite Rabs_Ropp, Rabs_mult. pose proof (Rabs_pos M).
  apply (Rmult_lt_compat_r (Rabs M + 1)) in Hm; [|lra]. unfold Rdiv in Hm. rewrite Rmult_assoc, Rinv_l, Rmult_1_r in Hm by lra. pose proof (Rabs_pos ((1 - 16 * (e * e)) ^ n)). nra.
Qed.

(** A grid that is stretched, or pushed back, at unit rate along x. *)
Definition pull (a : R) (k : nat) : V3 R := mkV3 (a * node_x ex_gridp k) 0 0.
(** What a step of the history needs, for any world [P], [So] on the grid of the examples. *)
Lemma pulled (P : params R) (So : solid R) G0 a p : pG P = ex_gridp -> 0 <= p_Mtol P < 1 -> s_law So = Elastic -> equipped So So -> slens (nodes (pG P)) G0 -> located ex_gridp p ->
  exists q r G', update_strain P (moving ex_gridp G0 (pull a)) p = Ok q /\ update_stress P So So 0 q G0 = Ok (r, G') /\ pdstrain q = diag (p_dt P * a) 0 0 /\ located ex_gridp r.
Proof.
  intros HG HM EL HE HS HL. set (G := moving ex_gridp G0 (pull a)). assert (HL' : located (pG P) p) by (rewrite HG; exact HL). assert (PP : proper (pG P)) by (rewrite HG; exact ex_proper).
  assert (Lm : length (gm G) = nodes (pG P)) by (rewrite HG; apply repeat_length). assert (Lq : length (gq G) = nodes (pG P)) by (rewrite HG; unfold G, moving; cbn [gq set]; rewrite map_length, seq_length; reflexivity).
  pose proof (located_reaches P p PP HL') as HR.
  destruct (strain_total P G p PP HR Lm Lq) as [q E]. pose proof (strain_frame _ _ _ _ E) as F. exists q.
  assert (HQ : pnstar q = pnstar p) by (rewrite F; reflexivity).
  destruct (law_total P So So 0 q G0) as (q2 & G2 & E2); [|exact HS|exact HE|]. { intros r Hr. rewrite HQ. apply (HR r Hr). }
  eexists. exists G2. split; [exact E|]. unfold update_stress. rewrite E2. cbn [bind]. split; [reflexivity|]. split.
  - destruct (strain_located P G p (mkV3 0 0 0) (mkM3 a 0 0 0 0 0 0 0 0) q PP HL' Lm Lq) as (D & _); [|apply HM|exact E|].
    + intros k Hk _. rewrite HG in Hk |- *. destruct (moving_nth ex_gridp G0 (pull a) k Hk) as [M1 M2]. fold G in M1, M2. rewrite M1, M2. split; [apply HM|]. intros c. unfold pull, affine. destruct c; cbn; ring.
    + rewrite D. apply m3_ext; cbn; lra.
  - pose proof (law_effect _ _ _ _ _ _ _ _ E2) as (LF & _). rewrite LF, F. destruct HL as (L1 & L2 & L3 & L4). split; [exact L1|]. split; [exact L2|]. split; [exact L3|exact L4].
Qed.
(** A point at rest and free of stress, strained by a tenth back and forth. *)
Example x_C134_ratchet : exists P So (p q : nat -> particle R), s_law So = Elastic /\ s_K So = Some 3 /\ s_G So = Some 2 /\ cycled (fun _ => P) So So 0 (1 / 10) p q /\
  pstress (p 0%nat) = diag 0 0 0 /\ pstrain (p 0%nat) = diag 0 0 0 /\ 16 * (1 / 10 * (1 / 10)) < 2 /\ 0 < 3 + 4 / 3 * 2.
Proof.
  assert (W : exists (P : params R) (So : solid R) (G0 : grid R) (p0 : particle R), pG P = ex_gridp /\ 0 <= p_Mtol P < 1 /\ p_dt P = 1 / 10 /\ s_law So = Elastic /\ s_K So = Some 3 /\ s_G So = Some 2 /\ equipped So So /\ slens (nodes (pG P)) G0 /\ located ex_gridp p0 /\ pstress p0 = diag 0 0 0 /\ pstrain p0 = diag 0 0 0).
  { destruct (grid_init_ok (ex_gridp (T := R)) ex_bounds ex_proper) as (G0 & _). exists (ex_params ex_bounds), (ex_solid_sc Elastic), (wipe (ex_params ex_bounds) G0), (ex_p_loc <| pstress := diag 0 0 0 |> <| pstrain := diag 0 0 0 |>).
    split; [reflexivity|]. split; [cbn; unfold lit; cbn; lra|]. split; [cbn; unfold lit; cbn; lra|]. split; [reflexivity|]. split; [cbn; unfold n3; cbn; f_equal; lra|]. split; [cbn; f_equal|]. split; [unfold equipped, has; cbn; split; discriminate|]. split; [apply wipe_slens|].
    split; [|split; reflexivity]. pose proof ex_p_located as (L1 & L2 & L3 & L4). split; [exact L1|]. split; [exact L2|]. split; [exact L3|exact L4]. }
  destruct W as (P & So & G0 & p0 & HG & HM & HD & EL & EK & EG & HE & HS & HL & HT & HZ). exists P, So.
  set (H := fun j : nat => moving ex_gridp G0 (pull (if Nat.even j then 1 else -1))).
  set (fq := fun j p => match update_strain P (H j) p with Ok q => q | Err _ => p end). set (fr := fun q => match update_stress P So So 0 q G0 with Ok (r, _) => r | Err _ => q end).
  set (pp := fix pp (j : nat) : particle R := match j with 0%nat => p0 | S j => fr (fq j (pp j)) end).
  assert (LL : forall j, located ex_gridp (pp j)).
  { induction j as [|j IH]; [exact HL|]. change (pp (S j)) with (fr (fq j (pp j))). destruct (pulled P So G0 (if Nat.even j then 1 else -1) (pp j) HG HM EL HE HS IH) as (q & r & G' & E1 & E2 & _ & E3). unfold fq, fr, H. rewrite E1, E2. exact E3. }
  exists pp, (fun j => fq j (pp j)). do 3 (split; [assumption|]). split; [|split; [exact HT|split; [exact HZ|lra]]]. split.
  - intros j. destruct (pulled P So G0 (if Nat.even j then 1 else -1) (pp j) HG HM EL HE HS (LL j)) as (q & r & G' & E1 & E2 & _). exists (H j), G0, G'. replace (j + 1)%nat with (S j) by lia. change (pp (S j)) with (fr (fq j (pp j))). unfold fq, fr, H. rewrite E1, E2. split; reflexivity.
  - intros j. destruct (pulled P So G0 (if Nat.even j then 1 else -1) (pp j) HG HM EL HE HS (LL j)) as (q & r & G' & E1 & E2 & E3 & _). unfold fq, H. rewrite E1, E3, HD. destruct (Nat.even j); apply m3_ext; cbn; field.
Qed.
