(** * Loops whose steps commute: the order of the points does not matter. *)
From Coq Require Import ZArith List Bool Arith Lia Reals Lra Permutation.
From Verif Require Import State NumR LibR LibList Spec SpecOrder ModelGrid ModelConstit ModelParticle ModelMPList ModelIntegr ModelMain ProofsInOut.
Import ListNotations.

Lemma omap_perm {A B} (F : A -> option B) l m : Permutation l m -> Permutation (omap F l) (omap F m).
Proof.
  induction 1; cbn.
  - constructor.
  - destruct (F x); [constructor|]; assumption.
  - destruct (F x), (F y); try constructor; try apply Permutation_refl.
  - eapply Permutation_trans; eassumption.
Qed.
Lemma omap_some {A B} (g : A -> B) l : omap (fun a => Some (g a)) l = map g l.
Proof. induction l; cbn; [reflexivity|]. f_equal. assumption. Qed.
Lemma omap_filter {A} (b : A -> bool) l : omap (fun a => if b a then Some a else None) l = filter b l.
Proof. induction l; cbn; [reflexivity|]. destruct (b a); [f_equal|]; assumption. Qed.
Lemma omap_app {A B} (F : A -> option B) l m : omap F (l ++ m) = omap F l ++ omap F m.
Proof. induction l; cbn; [reflexivity|]. destruct (F a); cbn; [f_equal|]; assumption. Qed.
Definition ocomp {A B C} (F : A -> option B) (G : B -> option C) (a : A) : option C :=
  match F a with Some b => G b | None => None end.
Lemma omap_comp {A B C} (F : A -> option B) (G : B -> option C) l : omap G (omap F l) = omap (ocomp F G) l.
Proof. unfold ocomp. induction l; cbn; [reflexivity|]. destruct (F a); cbn; [destruct (G b); [f_equal|]|]; assumption. Qed.

Section EachPerm.
  Context {A B St : Type} (run : B -> St -> res St).
  Context (Hcomm : forall b c s s1 s2, run b s = Ok s1 -> run c s1 = Ok s2 -> exists s1', run c s = Ok s1' /\ run b s1' = Ok s2).
  Definition runs (bs : list B) (s : St) : res St := foldM (fun s b => run b s) s bs.
  Lemma runs_perm bs cs : Permutation bs cs -> forall s s', runs bs s = Ok s' -> runs cs s = Ok s'.
  Proof.
    unfold runs. induction 1; intros s s' E; cbn [foldM] in *.
    - exact E.
    - pbinds E. rewrite E0. cbn. auto.
    - pbinds E. destruct (Hcomm _ _ _ _ _ E0 E1) as (s1 & H1 & H2). rewrite H1. cbn. rewrite H2. exact E.
    - auto.
  Qed.
  Lemma runs_app bs cs s : runs (bs ++ cs) s = (s <- runs bs s ;; runs cs s).
  Proof. unfold runs. revert s. induction bs as [|b bs IH]; intros s; cbn; [reflexivity|]. destruct (run b s); cbn; auto. Qed.
  Lemma runs_comm : forall b c s s1 s2, runs b s = Ok s1 -> runs c s1 = Ok s2 -> exists s1', runs c s = Ok s1' /\ runs b s1' = Ok s2.
  Proof.
    intros b c s s1 s2 E1 E2. assert (E : runs (b ++ c) s = Ok s2) by (rewrite runs_app, E1; exact E2).
    apply (runs_perm _ (c ++ b)) in E; [|apply Permutation_app_comm]. rewrite runs_app in E. apply bind_ok in E. exact E.
  Qed.

  Context (f : A -> St -> res (A * St)) (part : A -> res (A * B)) (Inv : St -> Prop).
  Context (Hf : forall a s, Inv s -> f a s = (p <- part a ;; s' <- run (snd p) s ;; Ok (fst p, s'))).
  Context (Hinv : forall b s s', Inv s -> run b s = Ok s' -> Inv s').
  Definition gpart (a : A) : A := match part a with Ok p => fst p | Err _ => a end.
  Definition acts (a : A) (b : B) : Prop := exists a', part a = Ok (a', b).
  Lemma each_part l : forall s l' s', Inv s -> each (length l) f l s = Ok (l', s') ->
    exists bs, Forall2 acts l bs /\ runs bs s = Ok s' /\ l' = map gpart l /\ Inv s'.
  Proof.
    induction l as [|a l IH]; intros s l' s' I E; cbn [length each] in E.
    - injection E as <- <-. exists []. split; [constructor|]. split; [reflexivity|]. split; [reflexivity|exact I].
    - pbinds E. injection E as <- <-. rewrite Hf in E0 by exact I. apply bind_ok in E0. destruct E0 as ([a' c] & EP & E0). cbn in E0. pbinds E0. injection E0 as <- <-.
      destruct (IH _ _ _ (Hinv _ _ _ I E) E1) as (bs & F & R & -> & I'). exists (c :: bs).
      split; [constructor; [exists a'; exact EP|exact F]|]. split; [unfold runs; cbn; rewrite E; exact R|]. split; [|exact I'].
      cbn. unfold gpart at 2. rewrite EP. reflexivity.
  Qed.
  Lemma part_each l bs : Forall2 acts l bs -> forall s s', Inv s -> runs bs s = Ok s' -> each (length l) f l s = Ok (map gpart l, s').
  Proof.
    induction 1 as [|a b l bs [a' EP] F IH]; intros s s' I E; unfold runs in E; cbn in E.
    - injection E as <-. reflexivity.
    - pbinds E. cbn [length each]. rewrite Hf by exact I. rewrite EP. cbn. rewrite E0. cbn. rewrite (IH _ _ (Hinv _ _ _ I E0) E). cbn. unfold gpart at 2. rewrite EP. reflexivity.
  Qed.
  Lemma each_perm l m s l' s' : Permutation l m -> Inv s -> each (length l) f l s = Ok (l', s') ->
    l' = map gpart l /\ Inv s' /\ each (length m) f m s = Ok (map gpart m, s').
  Proof.
    intros P I E. destruct (each_part _ _ _ _ I E) as (bs & F & R & -> & I'). split; [reflexivity|]. split; [exact I'|].
    destruct (Permutation_Forall2 P F) as (cs & PC & F'). apply (part_each _ cs F'); [exact I|]. eapply runs_perm; eassumption.
  Qed.
End EachPerm.

(** ** Two runs side by side *)
Section Sync.
  Context {T : Type}.
  (** What happened to the points of [a] and [b] is the same: each point turns
      into the same thing, the same points are added. *)
  Definition alike (a b a' b' : phase T) : Prop := ph_sol a' = ph_sol a /\
    exists F new, ph_pts a' = omap F (ph_pts a) ++ new /\ ph_pts b' = omap F (ph_pts b) ++ new.
  Inductive alikes : list (phase T) -> list (phase T) -> list (phase T) -> list (phase T) -> Prop :=
  | alikes_nil : alikes [] [] [] []
  | alikes_cons a b c d La Lb Lc Ld : alike a b c d -> alikes La Lb Lc Ld -> alikes (a :: La) (b :: Lb) (c :: Lc) (d :: Ld).
  Lemma alike_trans a b a' b' a'' b'' : alike a b a' b' -> alike a' b' a'' b'' -> alike a b a'' b''.
  Proof.
    intros [S1 (F & new & E1 & E2)] [S2 (F' & new' & E3 & E4)]. split; [congruence|]. exists (ocomp F F'), (omap F' new ++ new').
    rewrite E3, E1, E4, E2, !omap_app, !omap_comp, !app_assoc. split; reflexivity.
  Qed.
  Lemma alike_refl a b : alike a b a b.
  Proof. split; [reflexivity|]. exists Some, []. rewrite !(omap_some (fun a => a)), !map_id, !app_nil_r. split; reflexivity. Qed.
  Lemma alikes_trans La Lb Lc Ld : alikes La Lb Lc Ld -> forall Le Lf, alikes Lc Ld Le Lf -> alikes La Lb Le Lf.
  Proof. induction 1; intros Le Lf H2; inversion H2; subst; constructor; [eapply alike_trans; eassumption|auto]. Qed.
  Lemma alikes_refl La Lb : length La = length Lb -> alikes La Lb La Lb.
  Proof. revert Lb. induction La; destruct Lb; cbn; intros E; try discriminate; constructor; [apply alike_refl|apply IHLa; lia]. Qed.
  Lemma alike_reordered a b a' b' : reordered a b -> alike a b a' b' -> ph_sol b' = ph_sol b -> ph_sv a' = ph_sv b' -> ph_n a' = ph_n b' -> ph_n a' = length (ph_pts a') -> reordered a' b'.
  Proof.
    intros (S & N & V & P & C) [S' (F & new & E1 & E2)] S'' V' N' C'. split; [congruence|]. split; [exact N'|]. split; [exact V'|]. split; [|exact C'].
    rewrite E1, E2. apply Permutation_app_tail, omap_perm, P.
  Qed.
  (** A loop over the phases. *)
  Lemma forM_sync {St} (F : nat -> phase T -> St -> res (phase T * St)) (Inv : St -> Prop) :
    (forall k a b s a' s', reordered a b -> Inv s -> F k a s = Ok (a', s') -> Inv s' /\ exists b', F k b s = Ok (b', s') /\ reordered a' b' /\ alike a b a' b') ->
    forall La Lb, Forall2 reordered La Lb -> forall k s La' s', Inv s -> forM F k La s = Ok (La', s') ->
    Inv s' /\ exists Lb', forM F k Lb s = Ok (Lb', s') /\ Forall2 reordered La' Lb' /\ alikes La Lb La' Lb'.
  Proof.
    intros HF. induction 1 as [|a b La Lb R RR IH]; intros k s La' s' I E; cbn [forM] in E.
    - injection E as <- <-. split; [exact I|]. exists []. split; [reflexivity|]. split; constructor.
    - pbinds E. injection E as <- <-. destruct (HF _ _ _ _ _ _ R I E0) as (I1 & b' & Eb & R' & A').
      destruct (IH _ _ _ _ I1 E1) as (I2 & Lb' & EL & RR' & AA'). split; [exact I2|]. exists (b' :: Lb'). cbn [forM]. rewrite Eb. cbn. rewrite EL. cbn.
      split; [reflexivity|]. split; constructor; assumption.
  Qed.
End Sync.
