(** * The energies a run reports: C51. *)
From Coq Require Import ZArith Reals List Bool Arith Lra Lia.
From Verif Require Import State NumR Spec SpecLaws SpecStep LibList LibR ModelGrid ModelConstit ModelParticle ModelMPList
  ModelIntegr ModelMain ProofsGrid ProofsMap ProofsP2G ProofsWalls ProofsLaws ProofsInOut ProofsHist Concrete
  ThmMapping ThmWalls ThmLaws ThmInOut ThmHist ProofsStep ProofsPoints ThmStep ThmBalance.
Import ListNotations.
Local Open Scope R_scope.

(** The table row of a state: the time, then kinetic, gravitational and elastic energy, each summed over the points of all
    phases. *)
Lemma p_C51_totals : forall (P : params R) (L : list (phase R)), enough L ->
  all_live L (fun _ p => vx (px p) <> 0 /\ vz (px p) = 0) ->
  exists K U E, measure_energy P L = Ok (p_t P, K, U, E) /\
    K = psum L (fun ph p => pm p * (vx (velocity ph p) * vx (velocity ph p) + vy (velocity ph p) * vy (velocity ph p) + vz (velocity ph p) * vz (velocity ph p)) / 2) /\
    U = psum L (fun _ p => - pm p * ld_g (p_loads P) * (Rabs (vx (px p)) * sin (ld_theta (p_loads P)) + Rabs (vy (px p)) * cos (ld_theta (p_loads P)))) /\
    E = psum L (fun _ p => pV p / 2 * inner (pstress p) (pstrain p)).
Proof.
  intros P L HE HX. unfold measure_energy.
  set (f := fun (_ : nat) (ph : phase R) p kgs => let '(K, G, E) := kgs in let '(k, g, s) := energy P (ph_sv ph) p in Ok (nadd K k, nadd G g, nadd E s)).
  destruct (points_r_total f (fun _ => True) L (n0, n0, n0) HE I) as ([[K U] E] & EQ & _).
  { intros k ph p [[a b] c] _ _ _. unfold f. destruct (energy P (ph_sv ph) p) as [[x y] z]. eexists. split; [reflexivity|exact I]. }
  change (points_r _ L (n0, n0, n0)) with (points_r f L (n0, n0, n0)). exists K, U, E. split; [rewrite EQ; reflexivity|].
  assert (A : forall (g : R * R * R -> R) (c : phase R -> particle R -> R),
    (forall a b, g (fst (fst a) + fst (fst b), snd (fst a) + snd (fst b), snd a + snd b) = g a + g b) -> g (0, 0, 0) = 0 ->
    (forall ph p, In ph L -> In p (live ph) -> g (energy P (ph_sv ph) p) = c ph p) -> g (K, U, E) = psum L c).
  { intros g c HG H0 HC. destruct (points_r_acc f (fun _ => True) g c L (n0, n0, n0) (K, U, E) I) as [_ S]; [|exact EQ|].
    - intros k ph p [[a b] d] s' Hp Hq _ F. split; [exact I|]. unfold f in F. rewrite <- (HC ph p Hp Hq).
      destruct (energy P (ph_sv ph) p) as [[x y] z]. injection F as <-. apply (HG (a, b, d) (x, y, z)).
    - rewrite S. change (n0, n0, n0) with (0, 0, 0). rewrite H0. ring. }
  split; [|split].
  - apply (A (fun s => fst (fst s))); [reflexivity|reflexivity|]. intros ph p _ _. unfold energy. cbn [fst]. unfold velocity. change (vel (ph_sv ph) p) with (match pv p with Own v => v | Shared => ph_sv ph end). set (v := match pv p with Own v => v | Shared => ph_sv ph end). clearbody v. unfold nhalf, nsq, n2, n1. unR. cbn. field.
  - apply (A (fun s => snd (fst s))); [reflexivity|reflexivity|]. intros ph p Hp Hq. destruct (HX ph p Hp Hq) as [X Z]. apply p_C51_gravitational; assumption.
  - apply (A snd); [reflexivity|reflexivity|]. intros ph p _ _. unfold energy. cbn [snd]. unfold nhalf, n2, n1, msum, mmulE, inner. unR. cbn. field.
Qed.

(** Two phases: one with a point that is no longer counted, one whose point reads the velocity of its phase. *)
Example x_C51_totals : exists L : list (phase R), enough L /\ all_live L (fun _ p => vx (px p) <> 0 /\ vz (px p) = 0) /\ length L = 2%nat /\
  exists U E, measure_energy (ex_params ex_bounds) L = Ok (0, 5, U, E).
Proof.
  set (L := [mkPhase (ex_solid Elastic) 1 v0 [ex_particle 1 1 (mkV3 1 0 0) ex_stress; ex_particle 2 1 (mkV3 7 0 0) ex_stress];
             mkPhase (ex_solid Elastic) 1 (mkV3 0 2 0) [ex_particle 2 1 v0 ex_stress <| pv := Shared |>]] : list (phase R)).
  assert (HE : enough L) by (intros ph [<-|[<-|[]]]; cbn; lia).
  assert (HX : all_live L (fun _ p => vx (px p) <> 0 /\ vz (px p) = 0)) by (intros ph p [<-|[<-|[]]] [<-|[]]; cbn; split; [lra|reflexivity|lra|reflexivity]).
  exists L. split; [exact HE|]. split; [exact HX|]. split; [reflexivity|].
  destruct (p_C51_totals (ex_params ex_bounds) L HE HX) as (K & U & E & EQ & HK & _). exists U, E. rewrite EQ. cbn in HK. unfold n2 in HK. revert HK. unR. intros HK.
  replace K with 5 by lra. reflexivity.
Qed.
