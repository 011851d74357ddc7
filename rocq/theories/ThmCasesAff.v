(** * Cases that meet the hypotheses: the patch test *)
From Coq Require Import ZArith Reals List Bool Arith Lra Lia.
From Verif Require Import State NumR Spec SpecLaws SpecStep SpecScheme LibList LibR ModelGrid ModelInputs ModelConstit ModelParticle ModelMPList
  ModelIntegr ModelMain ProofsGrid ProofsMap ProofsP2G ProofsWalls ProofsLaws ProofsInOut ProofsHist Concrete
  ThmMapping ThmWalls ThmLaws ThmInOut ThmHist ProofsStep ProofsPoints ThmStep ThmBalance ThmEnergy ThmFall ThmGeo ProofsScheme ThmScheme
  ThmDensity ProofsFill ThmFill ProofsAffine ThmAffine.
Import ListNotations.
Local Open Scope R_scope.

(** The points of 6 by 6 cells, stretched along x under a uniform stress. *)
Definition flat_field : field :=
  mkField (fun _ => 0) (fun a => match a with AX => 1 | _ => 0 end) (fun _ => 0) (fun a d => delta a d) (fun _ _ => 0) (fun _ _ => 0) 0 0 0.
Definition flat_points : list (particle R) :=
  map (fun xy => ex_particle (fst xy) (snd xy) (speed flat_field (fst xy) (snd xy)) (tension flat_field (fst xy) (snd xy)))
    (layer patch_gridp 1 6 (INR (ny patch_gridp - 1 - 6) * cell_h patch_gridp)).
Definition flat_state (G : grid R) : state R := mkState patch_params G [mkPhase (ex_solid Elastic) (length flat_points) v0 flat_points].
(** A uniform stress, a flow that stretches the material along x. *)
Example x_C101_patch : forall fill, exists (s s' : state R) c rows mat rho V F b first,
  proper (pG (sP s)) /\ grid_init (pG (sP s)) (pB (sP s)) = Ok (sG s) /\ ThmWalls.plain (pB (sP s)) /\ shut (sP s) /\ no_rub (pB (sP s)) /\
  simple_laws (sL s) /\ own_velocities (sL s) /\ no_surface (sP s) (fall_loads (sP s)) /\
  (1 <= c)%nat /\ (1 <= rows <= ny (pG (sP s)) - 1)%nat /\ 0 < rho /\ 0 < V /\ p_Mtol (sP s) < rho * V * (INR c * INR c) /\
  bodies (sL s) = map (drawn mat rho V F b first) (layer (pG (sP s)) c rows (INR (ny (pG (sP s)) - 1 - rows) * cell_h (pG (sP s)))) /\
  time_march fall_loads fill s = Ok s' /\ (exists q, In q (bodies (sL s)) /\ deep (pG (sP s)) rows 2 (q_x q)) /\
  (forall a d, f_sx F a d = 0 /\ f_sy F a d = 0) /\ f_px F = 0 /\ f_py F = 0 /\ f_s F AX AX = 1 /\ f_vx F AX = 1.
Proof.
  intros fill. destruct (grid_init_ok patch_gridp ex_box patch_proper) as (G & EG & OK). set (s := flat_state G).
  assert (HH : INR (ny patch_gridp - 1 - 6) * cell_h patch_gridp = head patch_gridp 6) by reflexivity.
  assert (OV : own_velocities (sL s)).
  { intros ph p [<-|[]] Hp. unfold live in Hp. cbn [ph_n ph_pts] in Hp. rewrite firstn_all in Hp. apply in_map_iff in Hp as (xy & <- & _). eexists. reflexivity. }
  assert (Hr : (1 <= 6 <= ny patch_gridp - 1)%nat) by (cbn; lia).
  assert (RD : ready s).
  { constructor; cbn [s flat_state sP sG sL].
    - exact patch_proper.
    - exact OK.
    - intros ph [<-|[]]. reflexivity.
    - intros ph p [<-|[]] Hp. unfold live in Hp. cbn [ph_n ph_pts] in Hp. rewrite firstn_all in Hp. apply in_map_iff in Hp as (xy & <- & Hxy). split; [|discriminate].
      rewrite HH in Hxy. destruct (layer_inside _ patch_proper 1 6 ltac:(lia) Hr xy Hxy) as [X Y].
      assert (0 <= head patch_gridp 6). { unfold head. apply Rmult_le_pos; [apply pos_INR|]. pose proof (proj1 (ch _ patch_proper)). lra. }
      unfold in_dom. change (pG patch_params) with patch_gridp. cbn [ex_particle State.px vx vy]. lra.
    - exists (ex_solid Elastic). split; [reflexivity|]. intros ph [<-|[]]. split; discriminate.
    - intros ph [<-|[]]. discriminate.
    - discriminate.
    - left. reflexivity.
    - reflexivity.
    - split; reflexivity.
    - discriminate. }
  destruct (march_total fall_loads fill s RD) as [s' E].
  exists s, s', 1%nat, 6%nat, (matter_of (ex_solid Elastic)), 2, 1, flat_field, v0, true.
  assert (HB : bodies (sL s) = map (drawn (matter_of (ex_solid Elastic)) 2 1 flat_field v0 true) (layer patch_gridp 1 6 (INR (ny patch_gridp - 1 - 6) * cell_h patch_gridp))).
  { unfold bodies, s, flat_state. cbn [sL bodies_from]. rewrite app_nil_r. unfold live. cbn [ph_n ph_pts]. rewrite firstn_all. unfold flat_points. rewrite map_map. apply map_ext. intros xy.
    unfold mp_of, drawn. cbn [ph_sol ex_particle pm pV State.px pstress ppressure pb velocity pv Nat.eqb flat_field f_p f_px f_py]. unfold velocity. cbn [pv ex_particle].
    f_equal; try reflexivity; unfold lin, n2; unR; lra. }
  split; [exact patch_proper|]. split; [exact EG|]. split; [repeat split; reflexivity|]. split; [repeat split; reflexivity|]. split; [left; reflexivity|].
  split; [intros ph [<-|[]]; left; reflexivity|]. split; [exact OV|]. split; [split; reflexivity|]. split; [lia|]. split; [exact Hr|].
  split; [lra|]. split; [lra|]. split; [cbn; unR; lra|]. split; [exact HB|]. split; [exact E|].
  split.
  - exists (drawn (matter_of (ex_solid Elastic)) 2 1 flat_field v0 true (5/2, 5/2)). split.
    + rewrite HB. apply in_map. rewrite HH, layer_eq.
      assert (X : nth 2 (xs patch_gridp 1) 0 = 5/2). { rewrite (xs_nth _ patch_proper 1 6 ltac:(lia) Hr) by (cbn; lia). unfold pt, cell_w. cbn. lra. }
      assert (Y : nth 2 (ys patch_gridp 1 6) 0 = 5/2). { rewrite (ys_nth _ patch_proper 1 6 ltac:(lia) Hr) by (cbn; lia). unfold pt, cell_h. cbn. lra. }
      apply spread_conv; [rewrite <- X|rewrite <- Y]; apply nth_In; [rewrite xs_len|rewrite ys_len]; cbn; lia.
    + unfold deep. change (pG (sP s)) with patch_gridp. unfold cell_w, cell_h. cbn. lra.
  - cbn. unfold delta. repeat split; reflexivity.
Qed.
