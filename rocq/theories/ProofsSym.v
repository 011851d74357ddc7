(** * Symmetry of strains and of the stresses that the laws return. *)
From Coq Require Import ZArith Reals List Bool Arith Lra Lia.
From Verif Require Import State NumR Spec LibList LibR ModelGrid ModelConstit ModelParticle
  ProofsGrid ProofsMap ProofsLaws.
Import ListNotations.
Local Open Scope R_scope.

Ltac symgo := unfold symmetric; intros; cbn; unR; intuition congruence.
Lemma sym_add a b : symmetric a -> symmetric b -> symmetric (madd a b). Proof. symgo. Qed.
Lemma sym_sub a b : symmetric a -> symmetric b -> symmetric (msub a b). Proof. symgo. Qed.
Lemma sym_scale k a : symmetric a -> symmetric (mscale k a). Proof. symgo. Qed.
Lemma sym_muls k a : symmetric a -> symmetric (mmuls a k). Proof. symgo. Qed.
Lemma sym_divs k a : symmetric a -> symmetric (mdivs a k). Proof. symgo. Qed.
Lemma sym_opp a : symmetric a -> symmetric (mopp a). Proof. symgo. Qed.
Lemma sym_eye : symmetric eye. Proof. symgo. Qed.
Lemma sym_block a b : symmetric a -> ab b = ba b -> symmetric (set_block2 a b). Proof. symgo. Qed.
#[local] Hint Resolve sym_add sym_sub sym_scale sym_muls sym_divs sym_opp sym_eye sym_block : sym.
Lemma s2_map f (a : M2 R) : ab a = ba a -> ab (m2map f a) = ba (m2map f a). Proof. cbn. congruence. Qed.
Lemma s2_add (a b : M2 R) : ab a = ba a -> ab b = ba b -> ab (m2add a b) = ba (m2add a b). Proof. cbn. congruence. Qed.
Lemma s2_sub (a b : M2 R) : ab a = ba a -> ab b = ba b -> ab (m2sub a b) = ba (m2sub a b). Proof. cbn. congruence. Qed.
Lemma s2_scale k (a : M2 R) : ab a = ba a -> ab (m2scale k a) = ba (m2scale k a). Proof. cbn. congruence. Qed.
Lemma s2_muls k (a : M2 R) : ab a = ba a -> ab (m2muls a k) = ba (m2muls a k). Proof. cbn. congruence. Qed.
Lemma s2_divs k (a : M2 R) : ab a = ba a -> ab (m2divs a k) = ba (m2divs a k). Proof. cbn. congruence. Qed.
Lemma s2_eye : ab (eye2 (T := R)) = ba eye2. Proof. reflexivity. Qed.
#[local] Hint Resolve s2_add s2_sub s2_scale s2_muls s2_divs s2_eye : sym.
Ltac msym := auto 12 with sym.

Lemma strain_sym P G p p' : update_strain P G p = Ok p' -> symmetric (pdstrain p') /\ symmetric (pL p') /\
  p' = p <| pdstrain := pdstrain p' |> <| pL := pL p' |> <| pstrain := madd (pstrain p) (pdstrain p') |>.
Proof.
  unfold update_strain. intros E. pbinds E. injection E as <-. cbn [pdstrain pL pstrain set].
  cut (symmetric b /\ symmetric b0); [intros [A B]; split; [exact A|]; split; [exact B|reflexivity]|].
  apply (four_ind P (pnstar p) _ (fun _ dl => symmetric (fst dl) /\ symmetric (snd dl))) in E0; auto.
  - cbn. unfold symmetric. cbn. auto.
  - clear. intros r [d l] s' Hr [A B] E. pbinds E. injection E as <-. cbn [fst snd] in *.
    unfold symmetric in *. destruct A as (A1 & A2 & A3), B as (B1 & B2 & B3). cbn. unR.
    repeat split; lra.
Qed.

Lemma law_sym P S0 S ip p G p' G' : apply_law P S0 S ip p G = Ok (p', G') ->
  symmetric (pdstrain p) -> symmetric (pstress p) -> symmetric (pdev p) -> symmetric (pdstress p) ->
  symmetric (pstress p') /\ symmetric (pdev p') /\ symmetric (pdstress p').
Proof.
  intros E SD SS SV ST. unfold apply_law in E. destruct (s_law S); try discriminate E.
  - injection E as <- <-. auto.
  - unfold elastic in E. pbinds E. injection E as <- <-. cbn [pstress pdev pdstress set].
    split; [auto|]. split; [auto|]. msym.
  - unfold elastic_time in E. pbinds E. injection E as <- <-. cbn [pstress pdev pdstress set].
    split; [auto|]. split; [auto|]. msym.
  - unfold von_mises in E. pbinds E. injection E as <- <-. cbn [pstress pdev pdstress set].
    split; [auto|].  
    split; msym.
  - unfold dp in E. pbinds E. destruct (RK4 _ _ _) as [ds [pp qq]] eqn:ER. pbinds E. injection E as <- <-.
    cbn [pstress pdev pdstress set]. split; [auto|]. split; [auto|].
    cut (ab ds = ba ds). { intros Q. apply sym_block; auto. cbn. unR. congruence. }
    assert (GS : forall s, ab s = ba s -> ab (fst (dp_guts a5 a6 a7 a4 a4 (m2map nopp (block2 (pdstrain p))) s)) =
                                       ba (fst (dp_guts a5 a6 a7 a4 a4 (m2map nopp (block2 (pdstrain p))) s))).
    { intros s Hs. unfold dp_guts. cbn [fst]. apply s2_map. destruct SD as [Sd _].
      assert (ab (m2map nopp (block2 (pdstrain p))) = ba (m2map nopp (block2 (pdstrain p)))) by (cbn; congruence). auto 20 with sym. }
    unfold RK4 in ER. set (f := dp_guts a5 a6 a7 a4 a4) in *. set (e := m2map nopp (block2 (pdstrain p))) in *.
    set (s := m2map nopp (block2 (pstress p))) in *.
    assert (Hs : ab s = ba s) by (subst s; destruct SS as [Ss _]; cbn; unR; congruence).
    pose proof (GS s Hs) as H1. set (d1 := fst (f e s)) in *.
    pose proof (GS _ (s2_add _ _ Hs (s2_scale nhalf _ H1))) as H2. set (d2 := fst (f e (m2add s (m2scale nhalf d1)))) in *.
    pose proof (GS _ (s2_add _ _ Hs (s2_scale nhalf _ H2))) as H3. set (d3 := fst (f e (m2add s (m2scale nhalf d2)))) in *.
    pose proof (GS _ (s2_add _ _ Hs H3)) as H4. destruct (f e (m2add s d3)) as [d4 pq]. cbn [fst] in H4.
    injection ER as <- _. apply s2_divs. apply s2_add; [|exact H4]. apply s2_add; [|apply s2_scale; exact H3]. apply s2_add; [exact H1|apply s2_scale; exact H2].
  - unfold dp_rate in E. pbinds E. destruct (dp_rate_guts _ _ _ _ _ _ _) as [ds [pp qq]] eqn:ER. pbinds E.
    injection E as <- <-. cbn [pstress pdev pdstress set]. split; [auto|]. split; [auto|].
    cut (ab ds = ba ds). { intros Q. apply sym_block; auto. cbn. unR. congruence. }
    unfold dp_rate_guts in ER. injection ER as <- _ _. destruct SD as [Sd _], SS as [Ss _].
    assert (ab (m2map nopp (block2 (pdstrain p))) = ba (m2map nopp (block2 (pdstrain p)))) by (cbn; congruence).
    assert (ab (m2map nopp (block2 (pstress p))) = ba (m2map nopp (block2 (pstress p)))) by (cbn; congruence).
    auto 20 with sym.
  - unfold viscous in E. pbinds E. injection E as <- <-. cbn [pstress pdev pdstress set].
    split; [auto|]. split; msym.
  - unfold bingham in E. pbinds E. injection E as <- <-. cbn [pstress pdev pdstress set].
    assert (SV2 : symmetric a1).
    { destruct (_ <=? _)%num; pbinds E2; injection E2 as <-; msym. }
    split; [|auto]. msym.
  - unfold ken_kamrin in E. pbinds E. injection E as <- <-. cbn [pstress pdev pdstress set].
    split; [auto|].  split; msym.
  - unfold pouliquen in E. pbinds E. destruct (negb _); [discriminate|]. pbinds E. injection E as <- <-.
    cbn [pstress pdev pdstress set].
    split; [auto|].  
    split; msym.
  - unfold linear_mu in E. pbinds E. injection E as <- <-.
    cbn [pstress pdev pdstress set].
    split; [auto|].  
    split; msym.
  - unfold ken_simple in E. pbinds E. destruct (negb _); [discriminate|]. pbinds E. injection E as <- <-.
    cbn [pstress pdev pdstress set].
    split; [auto|].  
    split; [msym|]. match goal with |- symmetric (if ?b then _ else _) => destruct b end; msym.
Qed.

