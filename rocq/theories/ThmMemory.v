(** * What grains remember of having been apart: C137. *)
From Coq Require Import ZArith List Bool Arith Lia Reals Lra.
From RecordUpdate Require Import RecordUpdate.
From Verif Require Import State NumR LibR LibList Spec SpecLaws ModelGrid ModelConstit ModelParticle ModelMPList ModelMain ProofsGrid ProofsMap ProofsLaws ProofsHist Concrete ThmMapping ThmLaws ThmFields ThmRheo ThmBulk.
Import ListNotations.
Local Existing Instance Num_R.
Local Open Scope R_scope.

Definition grains : list law_name := [Pouliquen; LinearMu; KenSimple].
(** pouliquen drops the pressure of points that are lighter than 0.8 of the density of the material; not so here. *)
Definition dense (So : solid R) (p : particle R) : Prop := s_law So = Pouliquen -> s_rho So * (8 / 10) <= prho p.
(** What a point lives through in [n] steps: strains of any kind, of which its law keeps the pressure. *)
Record history (Pn : nat -> params R) (S0 So : solid R) (ip : nat) (p p' : nat -> particle R) (G G' : nat -> grid R) (n : nat) : Prop := {
  h_law : forall k, (k < n)%nat -> apply_law (Pn k) S0 So ip (p k) (G k) = Ok (p' k, G' k);
  h_next : forall k, (k < n)%nat -> ppressure (p (S k)) = ppressure (p' k);
  h_dense : forall k, (k < n)%nat -> dense So (p k) }.
(** The change of volume since the start, and the largest one so far. *)
Definition swell (p : nat -> particle R) (n : nat) : R := fsum n (fun k => tr3 (pdstrain (p k)) / 3).
Fixpoint widest (c : R) (p : nat -> particle R) (n : nat) : R :=
  match n with O => c | S n => Rmax (widest c p n) (swell p (S n)) end.

Lemma if_min x : (if Rltb 0 x then 0 else x) = Rmin 0 x.
Proof. unfold Rmin. destruct (Rltb 0 x) eqn:B; destruct (Rle_dec 0 x) as [D|D]; try reflexivity. - apply Rltb_true in B. lra. - assert (~ 0 < x) by (intros X; apply Rltb_true in X; congruence). lra. Qed.
Lemma grain_pressure P S0 So ip p G p' G' : In (s_law So) grains -> dense So p -> apply_law P S0 So ip p G = Ok (p', G') ->
  exists K, s_K So = Some K /\ ppressure p' = Rmin 0 (ppressure p + K * (tr3 (pdstrain p) / 3)).
Proof.
  intros HL HD E. unfold apply_law in E. unfold dense in HD. destruct HL as [HL|[HL|[HL|[]]]]; rewrite <- HL in E.
  - unfold pouliquen in E. pbinds E. destruct (negb _); [discriminate|]. pbinds E. apply okp_inj in E. destruct E as [<- _].
    match goal with H : attr (s_K So) = Ok ?k |- _ => exists k; split; [destruct (s_K So); [injection H as <-; reflexivity|discriminate]|] end.
    cbn [ppressure set]. specialize (HD (eq_sym HL)).
    match goal with |- (if (?a || ?b)%bool then _ else _) = _ => assert (B : b = false) end.
    { apply Rltb_false. cbn. unfold lit. cbn. unR. lra. }
    rewrite B, orb_false_r. apply if_min.
  - unfold linear_mu in E. pbinds E. apply okp_inj in E. destruct E as [<- _].
    match goal with H : attr (s_K So) = Ok ?k |- _ => exists k; split; [destruct (s_K So); [injection H as <-; reflexivity|discriminate]|] end.
    apply if_min.
  - unfold ken_simple in E. pbinds E. destruct (negb _); [discriminate|]. pbinds E. apply okp_inj in E. destruct E as [<- _].
    match goal with H : attr (s_K So) = Ok ?k |- _ => exists k; split; [destruct (s_K So); [injection H as <-; reflexivity|discriminate]|] end.
    apply if_min.
Qed.

(** ** C137 *)
(** After any history, the pressure is K times the compression since the moment
    at which the grains were furthest apart. *)
Lemma p_C137_exact : forall Pn S0 So ip p p' G G' n K, In (s_law So) grains -> s_K So = Some K -> 0 < K -> ppressure (p 0%nat) <= 0 ->
  history Pn S0 So ip p p' G G' n -> ppressure (p n) = K * (swell p n - widest (- ppressure (p 0%nat) / K) p n).
Proof.
  intros Pn S0 So ip p p' G G' n K HL HK K0 HP. induction n as [|n IH]; intros [H1 H2 H3].
  - unfold swell. cbn [widest fsum]. cbn. field. lra.
  - assert (E : ppressure (p n) = K * (swell p n - widest (- ppressure (p 0%nat) / K) p n)) by (apply IH; constructor; intros k Hk; [apply H1|apply H2|apply H3]; lia).
    rewrite (H2 n) by lia. destruct (grain_pressure _ _ _ _ _ _ _ _ HL (H3 n (Nat.lt_succ_diag_r n)) (H1 n (Nat.lt_succ_diag_r n))) as (K' & EK & ->).
    replace K' with K in * by congruence. rewrite E. cbn [widest].
    replace (swell p (S n)) with (swell p n + tr3 (pdstrain (p n)) / 3) by (unfold swell; cbn [fsum]; reflexivity).
    set (s := swell p n). set (w := widest _ _ _). set (t := tr3 (pdstrain (p n)) / 3).
    unfold Rmin, Rmax. destruct (Rle_dec 0 _) as [A|A], (Rle_dec w (s + t)) as [B|B]; try (assert (w <= s + t) by nra); try (assert (s + t <= w) by nra); nra.
Qed.
Lemma widest_least c p n : c <= widest c p n.
Proof. induction n as [|n IH]; cbn [widest]; [lra|]. eapply Rle_trans; [exact IH|apply Rmax_l]. Qed.
Lemma widest_over c p n j : (0 < j <= n)%nat -> swell p j <= widest c p n.
Proof.
  induction n as [|n IH]; intros Hj; [lia|]. cbn [widest]. destruct (Nat.eq_dec j (S n)) as [->|N]; [apply Rmax_r|]. eapply Rle_trans; [apply IH; lia|apply Rmax_l].
Qed.
(** So grains that are apart can press against each other: all it takes is that they have been further apart before. *)
Lemma p_C137_apart_refuted : forall Pn S0 So ip p p' G G' n j K, In (s_law So) grains -> s_K So = Some K -> 0 < K -> ppressure (p 0%nat) = 0 ->
  history Pn S0 So ip p p' G G' n -> (j <= n)%nat -> 0 <= swell p n < swell p j -> ppressure (p n) < 0.
Proof.
  intros Pn S0 So ip p p' G G' n j K HL HK K0 HP HH Hj Hs. rewrite (p_C137_exact Pn S0 So ip p p' G G' n K) by (assumption || lra).
  assert (J0 : (0 < j)%nat) by (destruct j; [unfold swell in Hs at 3; cbn in Hs; lra|lia]).
  pose proof (widest_over (- ppressure (p 0%nat) / K) p n j ltac:(lia)). nra.
Qed.
(** Grains that have never been further apart than they are now, or than they were without pressure, carry none. *)
Lemma p_C137_loose : forall Pn S0 So ip p p' G G' n K, In (s_law So) grains -> s_K So = Some K -> 0 < K -> ppressure (p 0%nat) <= 0 ->
  history Pn S0 So ip p p' G G' n -> (0 < n)%nat -> - ppressure (p 0%nat) <= K * swell p n -> (forall j, (j <= n)%nat -> swell p j <= swell p n) -> ppressure (p n) = 0.
Proof.
  intros Pn S0 So ip p p' G G' n K HL HK K0 HP HH Hn H0 Hs. rewrite (p_C137_exact Pn S0 So ip p p' G G' n K) by assumption.
  assert (A : widest (- ppressure (p 0%nat) / K) p n = swell p n); [|rewrite A; ring].
  apply Rle_antisym; [|apply widest_over; lia].
  assert (C : - ppressure (p 0%nat) / K <= swell p n) by (apply (Rmult_le_reg_l K); [lra|]; replace (K * (- ppressure (p 0%nat) / K)) with (- ppressure (p 0%nat)) by (field; lra); lra).
  assert (B : forall m, (m <= n)%nat -> widest (- ppressure (p 0%nat) / K) p m <= swell p n); [|apply B; lia].
  induction m as [|m IH]; intros Hm; cbn [widest]; [exact C|]. apply Rmax_lub; [apply IH; lia|apply Hs; exact Hm].
Qed.
(** Grains pulled apart and pushed half of the way back, with both laws that need no density. *)
Example x_C137_apart_refuted : forall l, l = LinearMu \/ l = KenSimple -> exists Pn So p p' G G', s_law So = l /\ s_K So = Some 3 /\ ppressure (p 0%nat) = 0 /\
  history Pn So So 0 p p' G G' 2 /\ 0 < swell p 2 < swell p 1.
Proof.
  intros l Hl. destruct some_grid as [G0 _].
  assert (Hr : In l [Elastic; ElasticTime; VonMises; DpRate; Viscous; Bingham; KenKamrin; LinearMu; KenSimple]) by (cbn; intuition auto).
  assert (AX : forall e x, exists p : particle R, located ex_gridp p /\ pphi p = [1/2; 1/2] /\ ppressure p = x /\ pdstrain p = times e (mkM3 1 0 0 0 1 0 0 0 1)).
  { intros e x. exists (ex_p_loc <| ppressure := x |> <| pdstrain := times e (mkM3 1 0 0 0 1 0 0 0 1) |>). split; [exact ex_p_located|]. split; [reflexivity|]. split; reflexivity. }
  destruct (AX 2 0) as (p0 & L0 & F0 & Q0 & D0). destruct (run_law l 0 Hr p0 G0 L0 F0) as (p0' & G0' & E0).
  destruct (AX (-1) (ppressure p0')) as (p1 & L1 & F1 & Q1 & D1). destruct (run_law l 0 Hr p1 G0 L1 F1) as (p1' & G1' & E1).
  destruct (AX 0 (ppressure p1')) as (p2 & _ & _ & Q2 & _).
  exists (fun _ => ex_params ex_bounds), (ex_solid_sc l), (fun k => match k with O => p0 | S O => p1 | _ => p2 end), (fun k => match k with O => p0' | _ => p1' end), (fun _ => wipe (ex_params ex_bounds) G0), (fun k => match k with O => G0' | _ => G1' end).
  split; [reflexivity|]. split; [reflexivity|]. split; [exact Q0|]. split.
  - constructor.
    + intros [|[|k]] Hk; [exact E0|exact E1|lia].
    + intros [|[|k]] Hk; [exact Q1|exact Q2|lia].
    + intros k _ HC. cbn in HC. destruct Hl; congruence.
  - unfold swell. cbn [fsum]. cbn. rewrite D0, D1. unfold tr3. cbn. lra.
Qed.

(** The granular laws too have a third of K as their bulk modulus, as long as the grains are pressed. *)
Lemma p_C129_grains : forall P S0 So ip p G p' G' K emax, s_law So = Pouliquen \/ s_law So = LinearMu -> apply_law P S0 So ip p G = Ok (p', G') -> dense So p -> 0 < p_dt P ->
  s_K So = Some K -> s_eta_max So = Some emax -> ppressure p + K * tr3 (pdstrain p) / 3 <= 0 ->
  mean3 (after p') = ppressure p' /\ ppressure p' - ppressure p = K * tr3 (pdstrain p) / 3.
Proof.
  intros P S0 So ip p G p' G' K emax HL E HD Hdt HK HE HP.
  destruct (grain_pressure _ _ _ _ _ _ _ _ ltac:(cbn; destruct HL as [-> | ->]; auto) HD E) as (K' & EK & EP). replace K' with K in * by congruence.
  assert (PS : pstress p' = pstress p) by (destruct (law_effect _ _ _ _ _ _ _ _ E) as (_ & _ & _ & _ & X); apply X; destruct HL as [-> | ->]; discriminate).
  assert (C : exists c, pdev p' = times c (deviator (pdstrain p)) /\ madd (pstress p) (pdstress p') = madd (mscale (ppressure p') eye) (pdev p')).
  { unfold apply_law in E. destruct HL as [L|L]; rewrite L in E.
    - destruct (pouliquen_core _ _ _ _ _ _ _ E Hdt HE) as (mu & _ & A & B). eauto.
    - destruct (linear_core _ _ _ _ _ _ _ E Hdt HE) as (mu & _ & A & B). eauto. }
  destruct C as (c & ED & EA). split.
  - unfold mean3, after. rewrite PS. change (plus3 (pstress p) (pdstress p')) with (madd (pstress p) (pdstress p')). rewrite EA, ED. destruct (pdstrain p). unfold tr3, deviator, tr3. cbn. unR. unfold tr3. cbn. field.
  - rewrite EP, Rmin_right; lra.
Qed.
Lemma grain_ex l e x : l = LinearMu \/ l = KenSimple -> exists p p' G G', apply_law (ex_params ex_bounds) (ex_solid_sc l) (ex_solid_sc l) 0 p G = Ok (p', G') /\
  ppressure p = x /\ pdstrain p = times e (mkM3 1 0 0 0 1 0 0 0 1).
Proof.
  intros Hl. destruct some_grid as [G0 _].
  assert (Hr : In l [Elastic; ElasticTime; VonMises; DpRate; Viscous; Bingham; KenKamrin; LinearMu; KenSimple]) by (cbn; intuition auto).
  assert (AX : exists p : particle R, located ex_gridp p /\ pphi p = [1/2; 1/2] /\ ppressure p = x /\ pdstrain p = times e (mkM3 1 0 0 0 1 0 0 0 1)).
  { exists (ex_p_loc <| ppressure := x |> <| pdstrain := times e (mkM3 1 0 0 0 1 0 0 0 1) |>). split; [exact ex_p_located|]. split; [reflexivity|]. split; reflexivity. }
  destruct AX as (p & L & F & Q & D). destruct (run_law l 0 Hr p G0 L F) as (p' & G' & E).
  exists p, p'. eexists. exists G'. split; [exact E|]. split; assumption.
Qed.
Example x_C137_loose : exists Pn So p p' G G', s_law So = LinearMu /\ s_K So = Some 3 /\ ppressure (p 0%nat) = - 1 /\
  history Pn So So 0 p p' G G' 1 /\ - ppressure (p 0%nat) <= 3 * swell p 1 /\ (forall j, (j <= 1)%nat -> swell p j <= swell p 1).
Proof.
  destruct (grain_ex LinearMu 2 (-1) (or_introl eq_refl)) as (p & p' & G & G' & E & Q & D).
  exists (fun _ => ex_params ex_bounds), (ex_solid_sc LinearMu), (fun k => match k with O => p | _ => p' end), (fun _ => p'), (fun _ => G), (fun _ => G').
  split; [reflexivity|]. split; [reflexivity|]. split; [exact Q|]. split; [constructor; intros [|k] Hk; try lia; [exact E|reflexivity|intros HC; discriminate]|].
  assert (S1 : forall f : nat -> particle R, f 0%nat = p -> swell f 1 = 2) by (intros f F; unfold swell; cbn; rewrite F, D; unfold tr3; cbn; lra).
  rewrite !S1 by reflexivity. rewrite Q. split; [lra|]. intros [|[|j]] Hj; [unfold swell; cbn; lra|rewrite S1 by reflexivity; lra|lia].
Qed.
Example x_C129_grains : exists P So p G p' G', s_law So = LinearMu /\ apply_law P So So 0 p G = Ok (p', G') /\ dense So p /\ 0 < p_dt P /\ s_K So = Some 3 /\ s_eta_max So = Some 1 /\
  ppressure p = -1 /\ 3 * tr3 (pdstrain p) / 3 = -3.
Proof.
  destruct (grain_ex LinearMu (-1) (-1) (or_introl eq_refl)) as (p & p' & G & G' & E & Q & D).
  exists (ex_params ex_bounds), (ex_solid_sc LinearMu), p, G, p', G'. split; [reflexivity|]. split; [exact E|]. split; [intros HC; discriminate|]. split; [cbn; unfold lit; cbn; unR; lra|].
  split; [reflexivity|]. split; [reflexivity|]. split; [exact Q|]. rewrite D. unfold tr3. cbn. lra.
Qed.
