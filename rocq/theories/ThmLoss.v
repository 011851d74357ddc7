(** * The energy of a falling body: C151. *)
From Coq Require Import ZArith Reals List Bool Arith Lra Lia.
From RecordUpdate Require Import RecordUpdate.
From Verif Require Import State NumR Spec SpecLaws SpecStep SpecScheme SpecView LibList LibR ModelGrid ModelConstit ModelParticle ModelMPList
  ModelIntegr ModelMain ProofsGrid ProofsMap ProofsP2G ProofsWalls ProofsLaws ProofsInOut ProofsHist Concrete
  ThmMapping ThmWalls ThmLaws ThmInOut ThmHist ProofsStep ProofsPoints ThmStep ThmBalance ThmEnergy ThmFall ThmGeo ProofsScheme ProofsView ThmScheme ThmView ThmSpin ThmAngular ThmBeat ThmObserver ThmSilent ThmCells ThmMerge ThmJump ThmNewton ThmDrop.
Import ListNotations.
Local Open Scope R_scope.

(** The energy of the centre of mass along one axis: that of its motion and that of its
    height, for a body of mass [M] under the gravity [g]. *)
Definition centre_energy (M : R) (g : V3 R) (a : axis) (B : list mp) : R := drive a B * drive a B / (2 * M) - comp a g * moment a B.
Lemma pull_all a g B : (forall q, In q B -> q_first q = true) -> pull a g B = Rsum (map q_m B) * comp a g.
Proof.
  intros H. unfold pull. rewrite Rmult_comm, <- Rsum_scal. apply Rsum_ext. intros q Hq. rewrite (H q Hq). ring.
Qed.

(** ** C151 *)
(** Any body without walls and without [damping] under constant gravity, of which all points
    touch heavy nodes only: after [n] steps the energy of its centre of mass is lower by
    [n dt^2 M g^2 / 2], that is by a part of the time step times the time that has passed. *)
Lemma p_C151_loss : forall uf fill g th n (s : state R) tr, plain s -> p_damping (sP s) = false -> wall_free (bv (sG s)) (bh (sG s)) -> 0 <= p_Mtol (sP s) ->
  (forall P, no_surface (sP s) (uf P)) -> (forall P, ld_g (uf P) = g /\ ld_theta (uf P) = th) -> (forall q, In q (bodies (sL s)) -> q_first q = true) ->
  Rsum (map q_m (bodies (sL s))) <> 0 ->
  (forall k, (k < n)%nat -> let B := t_run uf k (sP s) (sG s) (bodies (sL s)) in all_heavy (scheme_at uf k (sP s) (sG s)) B /\
    Forall (fun q => in_dom (pG (sP s)) (q_x q) /\ (p_check (sP s) = true -> vz (q_x q) = 0)) B) ->
  exists s' tr', after uf fill n s tr = Ok (s', tr') /\ forall a,
  let V := mkV3 (g * sin th) (g * cos th) 0 in let M := Rsum (map q_m (bodies (sL s))) in
  centre_energy M V a (bodies (sL s')) = centre_energy M V a (bodies (sL s)) - INR n * (p_dt (sP s) * p_dt (sP s)) * (M * (comp a V * comp a V)) / 2.
Proof.
  intros uf fill g th n s tr Hs HQ HW HT HN HU HF HM HD.
  destruct (p_C149_falls uf fill g th n s tr Hs HW HT HN HU) as (s' & tr' & E & A); [intros q Hq F; rewrite (HF q Hq) in F; discriminate F|exact HD|].
  exists s', tr'. split; [exact E|]. intros a V M. destruct (A a) as [D X]. rewrite HQ in D, X. fold V in D, X. rewrite (pull_all a V _ HF) in D, X. fold M in D, X, HM.
  unfold centre_energy. rewrite D, X. generalize (drive a (bodies (sL s))) (moment a (bodies (sL s))) (comp a V) (p_dt (sP s)) (INR n). clearbody M. intros d x y h k. field. exact HM.
Qed.
Lemma even_duet G v w : grid_ok ex_gridp G -> plain (pair_state G (duet v w)).
Proof.
  intros OK. constructor; try assumption; try reflexivity; try (cbn; lra).
  - exact ex_proper.
  - intros ph [<-|[]]. reflexivity.
  - intros ph [<-|[]]. left. reflexivity.
  - eexists. split; [reflexivity|]. intros ph [<-|[]]. unfold equipped, has. cbn. split; discriminate.
  - intros ph p [<-|[]] [<-|[<-|[]]]; eexists; reflexivity.
  - repeat split; reflexivity.
  - left; reflexivity.
Qed.
(** Two points of mass two each that collide while they fall, without damping. *)
Example x_C151_loss : forall g, exists s : state R, plain s /\ p_damping (sP s) = false /\ wall_free (bv (sG s)) (bh (sG s)) /\ 0 <= p_Mtol (sP s) /\ (forall P, no_surface (sP s) (down g P)) /\
  (forall P, ld_g (down g P) = g /\ ld_theta (down g P) = 0) /\ (forall q, In q (bodies (sL s)) -> q_first q = true) /\ Rsum (map q_m (bodies (sL s))) = 4 /\ p_dt (sP s) = 1/10 /\
  (forall k, (k < 1)%nat -> let B := t_run (down g) k (sP s) (sG s) (bodies (sL s)) in all_heavy (scheme_at (down g) k (sP s) (sG s)) B /\
    Forall (fun q => in_dom (pG (sP s)) (q_x q) /\ (p_check (sP s) = true -> vz (q_x q) = 0)) B).
Proof.
  intros g. destruct (grid_init_ok ex_gridp ex_bounds ex_proper) as (G & EG & OK). pose proof (no_walls G EG OK) as HW.
  exists (pair_state G (duet 3 1)). split; [apply even_duet, OK|]. split; [reflexivity|]. split; [exact HW|]. split; [cbn; unfold lit; unR; lra|]. split; [intros P; split; discriminate|]. split; [intros P; split; reflexivity|].
  split; [intros q [<-|[<-|[]]]; reflexivity|]. split; [cbn; unR; lra|]. split; [reflexivity|].
  intros [|n] Hn; [|lia]. cbn [t_run]. cbv zeta. split; [apply duet_heavy; reflexivity|]. repeat constructor; cbn; try (unR; lra); try reflexivity.
Qed.
(** A falling body does not keep the energy of its centre of mass. *)
Lemma p_C151_kept_refuted : forall fill g, g <> 0 -> exists (s s' : state R) tr, plain s /\ p_damping (sP s) = false /\ wall_free (bv (sG s)) (bh (sG s)) /\ Forall (fun q => q_first q = true /\ in_dom (pG (sP s)) (q_x q)) (bodies (sL s)) /\
  after (down g) fill 1 s [] = Ok (s', tr) /\ let M := Rsum (map q_m (bodies (sL s))) in 0 < M /\
  centre_energy M (mkV3 0 g 0) AY (bodies (sL s')) < centre_energy M (mkV3 0 g 0) AY (bodies (sL s)).
Proof.
  intros fill g Hg. destruct (x_C151_loss g) as (s & PL & HQ & HW & HT & HN & HU & HF & HM & Hh & HD).
  destruct (p_C151_loss (down g) fill g 0 1 s [] PL HQ HW HT HN HU HF) as (s' & tr & E & A); [rewrite HM; lra|exact HD|].
  exists s, s', tr. split; [exact PL|]. split; [exact HQ|]. split; [exact HW|].
  split; [apply Forall_forall; intros q Hq; split; [exact (HF q Hq)|]; destruct (HD 0%nat Nat.lt_0_1) as [_ F]; rewrite Forall_forall in F; exact (proj1 (F q Hq))|].
  split; [exact E|]. specialize (A AY). cbv zeta in A. rewrite sin_0, cos_0, Rmult_0_r, Rmult_1_r, HM, Hh in A. cbv zeta. rewrite HM. split; [lra|]. rewrite A. cbn [INR comp vy].
  assert (0 < g * g) by (destruct (Rtotal_order g 0) as [N|[N|N]]; [nra|contradiction|nra]). lra.
Qed.
