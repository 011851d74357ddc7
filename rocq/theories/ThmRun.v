(** * Complete runs: termination of the loop, and runs that meet the hypotheses on histories *)
From Coq Require Import ZArith List Bool Arith Lia Reals Lra.
From Verif Require Import State NumR LibR LibList Spec SpecStep ModelGrid ModelConstit ModelParticle ModelMPList
  ModelIntegr ModelMain ProofsGrid ProofsMap ProofsP2G ProofsWalls ProofsLaws ProofsSym ProofsInOut ProofsHist Concrete
  ThmMapping ThmWalls ThmLaws ThmInOut ThmLoop ThmHist ProofsStep ThmStep ProofsPoints ThmBalance.
Import ListNotations.
Local Open Scope R_scope.

(** ** C42 *)
Lemma march_fuel uf fill : forall fuel s tr, p_dynamic (sP s) = false -> 0 < p_dt (sP s) ->
  (passes (p_t (sP s)) (p_tf (sP s)) (p_dt (sP s)) <= fuel)%nat -> march uf fill fuel s tr <> None.
Proof.
  induction fuel as [|fuel IH]; intros s tr HD Hdt HF; cbn [march];
    destruct (p_t (sP s) <=? p_tf (sP s))%num eqn:L; try discriminate.
  - apply Rleb_true in L. rewrite (passes_step _ _ _ Hdt L) in HF. lia.
  - apply Rleb_true in L. rewrite (passes_step _ _ _ Hdt L) in HF.
    destruct (pass uf fill s tr) as [[s2 tr2]|] eqn:EP; [|discriminate].
    destruct (pass_ok _ _ _ _ _ _ EP HD) as (s1 & b & E1 & EP1 & E2 & EB & ET).
    assert (Q : sP s2 = sP s <| p_loads := uf (sP s) |> <| p_t := p_t (sP s) + p_dt (sP s) |> <| p_tstep := (p_tstep (sP s) + 1)%Z |>).
    { rewrite E2. cbn [sP set]. rewrite EP1. reflexivity. }
    apply IH; rewrite Q; cbn [p_dynamic p_dt p_t p_tf set]; [exact HD|exact Hdt|].
    match goal with |- (?x <= _)%nat => change x with (passes (p_t (sP s) + p_dt (sP s)) (p_tf (sP s)) (p_dt (sP s))) end. lia.
Qed.

(** With a positive time step the loop ends, at the latest with an exception,
    after at most the number of passes of C42_main_loop. *)
Lemma p_C42_fuel_suffices : forall uf fill (s : state R), p_dynamic (sP s) = false -> 0 < p_dt (sP s) ->
  let t := p_t (sP s) in let tf := p_tf (sP s) in
  forall fuel, (Datatypes.S (Z.to_nat (Rfloor ((tf - t) / p_dt (sP s)))) <= fuel)%nat ->
  exists r, main_loop uf fill fuel s = Some r.
Proof.
  intros uf fill s HD Hdt t tf fuel HF. unfold main_loop.
  destruct (march uf fill fuel s [EInitial]) as [[[s2 tr2]|e]|] eqn:E; [eexists; reflexivity..|].
  exfalso. refine (march_fuel uf fill fuel s [EInitial] HD Hdt _ E). unfold passes. fold t tf.
  destruct (Rle_dec t tf); lia.
Qed.

(** What the loop computes does not depend on the bound on the number of passes
    used to state it. *)
Lemma march_det {T} {N : Num T} uf fill : forall f1 f2 (s : state T) tr r1 r2,
  march uf fill f1 s tr = Some r1 -> march uf fill f2 s tr = Some r2 -> r1 = r2.
Proof.
  induction f1 as [|f1 IH]; intros f2 s tr r1 r2; destruct f2 as [|f2]; cbn [march];
    destruct (p_t (sP s) <=? p_tf (sP s))%num; try congruence.
  destruct (pass uf fill s tr) as [[s2 tr2]|]; [apply IH|congruence].
Qed.
Lemma p_C42_deterministic : forall (T : Type) (N : Num T) uf fill f1 f2 (s : state T) r1 r2,
  main_loop uf fill f1 s = Some r1 -> main_loop uf fill f2 s = Some r2 -> r1 = r2.
Proof.
  intros T N uf fill f1 f2 s r1 r2. unfold main_loop. intros E1 E2.
  destruct (march uf fill f1 s [EInitial]) as [x1|] eqn:M1; [|discriminate].
  destruct (march uf fill f2 s [EInitial]) as [x2|] eqn:M2; [|discriminate].
  rewrite (march_det uf fill _ _ _ _ _ _ M1 M2) in E1. rewrite E1 in E2. congruence.
Qed.

(** With a zero or negative time step the loop never completes. *)
Lemma march_stuck uf fill : forall fuel (s : state R) tr x, p_dynamic (sP s) = false -> p_dt (sP s) <= 0 ->
  p_t (sP s) <= p_tf (sP s) -> march uf fill fuel s tr <> Some (Ok x).
Proof.
  induction fuel as [|fuel IH]; intros s tr x HD Hdt HT; cbn [march];
    (destruct (p_t (sP s) <=? p_tf (sP s))%num eqn:L; [|apply Rleb_false in L; lra]); [discriminate|].
  destruct (pass uf fill s tr) as [[s2 tr2]|] eqn:EP; [|discriminate].
  destruct (pass_ok _ _ _ _ _ _ EP HD) as (s1 & b & E1 & EP1 & E2 & EB & ET).
  assert (Q : sP s2 = sP s <| p_loads := uf (sP s) |> <| p_t := p_t (sP s) + p_dt (sP s) |> <| p_tstep := (p_tstep (sP s) + 1)%Z |>).
  { rewrite E2. cbn [sP set]. rewrite EP1. reflexivity. }
  apply IH; rewrite Q; [exact HD|exact Hdt|].
  match goal with |- ?a <= ?b => change (p_t (sP s) + p_dt (sP s) <= p_tf (sP s)) end. lra.
Qed.
Lemma p_C42_no_progress : forall uf fill fuel (s : state R) x, p_dynamic (sP s) = false -> p_dt (sP s) <= 0 ->
  p_t (sP s) <= p_tf (sP s) -> main_loop uf fill fuel s <> Some (Ok x).
Proof.
  intros uf fill fuel s x HD Hdt HT. unfold main_loop.
  pose proof (march_stuck uf fill fuel s [EInitial]) as M.
  destruct (march uf fill fuel s [EInitial]) as [[[s2 tr2]|e]|] eqn:E; try discriminate.
  exfalso. exact (M (s2, tr2) HD Hdt HT eq_refl).
Qed.

(** A closed box that respects the CFL condition runs to the end. *)
Lemma p_C42_completes : forall uf fill s, boxed s -> runnable s -> cfl_held uf fill s -> 0 < p_dt (sP s) ->
  exists fuel s' tr, main_loop uf fill fuel s = Some (Ok (s', tr)).
Proof.
  intros uf fill s HB HR HF Hdt.
  destruct (p_C42_fuel_suffices uf fill s (rn_dyn _ HR) Hdt _ (le_n _)) as [r E].
  destruct r as [[s' tr]|e]; [eauto|]. exfalso. exact (proj2 (p_C14_never_aborts uf fill s HB HR HF) _ _ E).
Qed.

(** ** A box with two particles at rest, from t = 0 to t = 1 with steps of 1/10,
    saving every 1/2. *)
Lemma rest_setting fill : exists G, grid_init (ex_gridp (T := R)) ex_box = Ok G /\ grid_ok ex_gridp G /\
  boxed (dr_state ex_box G v0) /\ runnable (dr_state ex_box G v0) /\ cfl_held no_loads fill (dr_state ex_box G v0).
Proof.
  destruct (grid_init_ok ex_gridp ex_box ex_proper) as (G & EG & OK).
  assert (SH : shut (ex_params (T := R) ex_box)) by (repeat split; reflexivity).
  exists G. split; [exact EG|]. split; [exact OK|]. split; [|split].
  - constructor; cbn [dr_state sP sG sL ex_params pG pB p_seg].
    + exact ex_proper.
    + exact OK.
    + reflexivity.
    + repeat split; reflexivity.
    + intros ph [<-|[]]. reflexivity.
    + intros ph [<-|[]]. cbn; discriminate.
    + exact (box_closed G EG).
    + exact (dr_dom v0).
  - constructor; cbn [dr_state sP sG sL ex_params p_check p_aniso p_dynamic p_tf p_savetime]; try reflexivity; try (cbn; lra).
    exists (ex_solid Elastic). split; [reflexivity|]. intros ph [<-|[]]. unfold equipped, has. cbn; repeat split; discriminate.
  - apply rest_cfl; auto.
    + exact ex_proper.
    + exact (dr_dom' v0).
    + left; reflexivity.
    + cbn; lra.
    + intros ph [<-|[]]. reflexivity.
    + exact (dr_drift v0).
    + intros P. repeat split; reflexivity.
    + cbn; lra.
Qed.
Example x_C42_main_loop : forall fill, exists fuel s s' tr, main_loop no_loads fill fuel s = Some (Ok (s', tr)) /\
  p_dynamic (sP s) = false /\ 0 < p_dt (sP s) /\ Rfloor ((p_tf (sP s) - p_t (sP s)) / p_dt (sP s)) = 10%Z.
Proof.
  intros fill. destruct (rest_setting fill) as (G & EG & OK & HB & HR & HF).
  destruct (p_C42_completes no_loads fill _ HB HR HF) as (fuel & s' & tr & E); [cbn; lra|].
  exists fuel, (dr_state ex_box G v0), s', tr. split; [exact E|]. split; [reflexivity|]. split; [cbn; lra|].
  apply Rfloor_spec. cbn. lra.
Qed.
Example x_C42_fuel_suffices : forall fill, exists s : state R, p_dynamic (sP s) = false /\ 0 < p_dt (sP s) /\ p_t (sP s) < p_tf (sP s) /\
  (length (concat (map live (sL s))) = 2)%nat /\ forall e, main_loop no_loads fill 11 s <> Some (Err e).
Proof.
  intros fill. destruct (rest_setting fill) as (G & EG & OK & HB & HR & HF).
  exists (dr_state ex_box G v0). split; [reflexivity|]. split; [cbn; lra|]. split; [cbn; lra|]. split; [reflexivity|].
  apply (p_C14_never_aborts no_loads fill _ HB HR HF).
Qed.
Example x_C43_once : forall fill, exists fuel s s' tr, main_loop no_loads fill fuel s = Some (Ok (s', tr)) /\
  p_dynamic (sP s) = false /\ p_t (sP s) = 0 /\ p_tstep (sP s) = 0%Z /\ 0 < p_dt (sP s) < p_savetime (sP s) /\
  (INR 1 + 1) * p_savetime (sP s) <= p_tf (sP s).
Proof.
  intros fill. destruct (rest_setting fill) as (G & EG & OK & HB & HR & HF).
  destruct (p_C42_completes no_loads fill _ HB HR HF) as (fuel & s' & tr & E); [cbn; lra|].
  exists fuel, (dr_state ex_box G v0), s', tr. split; [exact E|]. repeat split; cbn; lra.
Qed.

(** ** Histories *)
(** A moving, stressed body in a box with gravity: a step exists, the counters
    agree and the stresses are symmetric. *)
Lemma moved uf fill : exists G s', grid_init (ex_gridp (T := R)) ex_box = Ok G /\ reach uf fill (start (ex_params ex_box) G VonMises) s' /\
  s' <> start (ex_params ex_box) G VonMises.
Proof.
  destruct (grid_init_ok ex_gridp ex_box ex_proper) as (G & EG & OK).
  pose proof (ex_ready ex_box G EG OK eq_refl eq_refl eq_refl VonMises (or_intror eq_refl)) as HR.
  destruct (p_C58_pass_total uf fill _ [] HR) as [[s' tr'] E]; [reflexivity|cbn; lra|cbn; lra|].
  exists G, s'. split; [exact EG|]. split; [eapply reach_S; [apply reach_0|exact E]|].
  destruct (pass_inv uf fill _ _ _ _ E) as (s3 & dt & _ & _ & _ & EP). intros Q. rewrite Q in EP.
  apply (f_equal p_t) in EP. cbn in EP. lra.
Qed.
Example x_C33_count : forall uf fill, exists s s' : state R, counted (sL s) /\ reach uf fill s s' /\ s' <> s /\
  (length (concat (map live (sL s))) = 2)%nat.
Proof.
  intros uf fill. destruct (moved uf fill) as (G & s' & _ & HR & HN).
  exists (start (ex_params ex_box) G VonMises), s'. split; [|auto]. intros ph [<-|[]]. reflexivity.
Qed.
Example x_C34_total_mass : forall uf fill, exists s s' : state R, counted (sL s) /\ reach uf fill s s' /\ s' <> s /\
  outlet_left (pB (sP s)) = false /\ outlet_bottom (pB (sP s)) = false /\
  inlet_right (pB (sP s)) = false /\ inlet_top (pB (sP s)) = false /\
  (forall ph, In ph (sL s) -> s_law (ph_sol ph) <> ElasticTime) /\ 0 < psum (sL s) (fun _ p => pm p).
Proof.
  intros uf fill. destruct (moved uf fill) as (G & s' & _ & HR & HN).
  exists (start (ex_params ex_box) G VonMises), s'. split; [intros ph [<-|[]]; reflexivity|].
  split; [exact HR|]. split; [exact HN|]. repeat (split; [reflexivity|]). split; [intros ph [<-|[]]; discriminate|].
  cbn. lra.
Qed.
Example x_C17_history : forall uf fill, exists s s' : state R, counted (sL s) /\ reach uf fill s s' /\ s' <> s /\
  (forall ph p, In ph (sL s) -> In p (ph_pts ph) -> all_sym p) /\
  (exists ph p, In ph (sL s) /\ In p (ph_pts ph) /\ pstress p <> m0).
Proof.
  intros uf fill. destruct (moved uf fill) as (G & s' & _ & HR & HN).
  exists (start (ex_params ex_box) G VonMises), s'. split; [intros ph [<-|[]]; reflexivity|].
  split; [exact HR|]. split; [exact HN|]. split.
  - intros ph p [<-|[]] [<-|[<-|[]]]; unfold all_sym, symmetric; cbn; repeat split.
  - eexists _, _. split; [left; reflexivity|]. split; [left; reflexivity|]. cbn. intros Q. injection Q. lra.
Qed.
(** Two grids that differ in the masses and momenta left over from an earlier step. *)
Example x_C52_old_grid_irrelevant : exists G G' : grid R, same_mesh G G' /\ gm G <> gm G' /\ gq G <> gq G' /\
  grid_init ex_gridp ex_box = Ok G.
Proof.
  destruct (grid_init_ok ex_gridp ex_box ex_proper) as (G & EG & OK).
  exists G, (G <| gm := 7 :: gm G |> <| gq := v0 :: gq G |>). split; [repeat split|]. split; [|split; [|exact EG]].
  - cbn. intros Q. apply (f_equal (@length _)) in Q. cbn in Q. lia.
  - cbn. intros Q. apply (f_equal (@length _)) in Q. cbn in Q. lia.
Qed.
