(** * Grain size fractions on the nodes and on the particles *)
From Coq Require Import ZArith List Bool Arith Lia Reals Lra.
From Verif Require Import State NumX NumR LibR LibList Spec ModelGrid ModelConstit ModelParticle ModelMPList ProofsGrid ProofsMap ProofsP2G ThmMapping Concrete.
Import ListNotations.
Local Open Scope R_scope.
Local Existing Instance Num_R.

(** Fractions of [n] size classes: not negative, summing to one. *)
Definition fractions (n : nat) (l : list R) : Prop :=
  length l = n /\ Forall (fun a => 0 <= a <= 1) l /\ Rsum l = 1.

(** ** C36 *)
Lemma p2g_seg P sv p G G' : p2g P sv p G = Ok G' -> seg_ok P G -> seg_ok P G'.
Proof.
  intros H HS. unfold p2g in H. eapply (four_ind P _ _ (fun _ G => seg_ok P G)) in H; [exact H|exact HS|].
  intros r t t' Hr Ht Hf SEG. rewrite SEG in Hf. pbinds Hf. inv Hf. specialize (Ht SEG). cbn in *.
  unfold row_add in E2. match type of E2 with (if Nat.eqb ?x ?y then _ else _) = _ => destruct (Nat.eqb_spec x y) as [EL|]; [|discriminate] end.
  injection E2 as <-. apply py_upd_ok in E3. destruct E3 as (k & _ & _ & ->). apply Forall_upd; [exact Ht|]. intros _ _.
  rewrite zipw_length. rewrite <- EL, Nat.min_id. apply py_get_ok with (d := []) in E1. destruct E1 as (k' & _ & Hk & ->).
  apply (proj1 (Forall_forall _ _) Ht), nth_In. exact Hk.
Qed.
Lemma loop_seg P L G L' G' : p2g_loop P L G = Ok (L', G') -> seg_ok P G -> seg_ok P G'.
Proof.
  intros H HS. unfold p2g_loop in H. eapply (forM_rel _ (fun G => seg_ok P G) (fun _ _ => True)) in H; [exact (proj1 H)|exact HS|].
  intros k ph t ph' t' Hin Ht Hf. pbinds Hf. inv Hf. split; [|exact I].
  eapply each_inv with (I := fun G => seg_ok P G) in E; [|exact Ht|].
  - intros SEG. rewrite SEG. exact (E SEG).
  - intros q u q' u' _ Hu Hg. pbinds Hg. inv Hg. eauto using p2g_seg.
Qed.
Lemma loop_phi P L G L' G' : p_seg P = true -> p2g_loop P L G = Ok (L', G') -> L = [] /\ G' = G \/ g_phi G' = node_fractions G'.
Proof.
  intros SEG H. unfold p2g_loop in H. rewrite SEG in H. destruct L as [|ph L]; [left; cbn in H; injection H as _ <-; auto|right].
  cbn [forM] in H. pbinds H. inv H. 
  eapply (forM_rel _ (fun G => g_phi G = node_fractions G) (fun _ _ => True)) in E0; [exact (proj1 E0)| |].
  - pbinds E. inv E. reflexivity.
  - intros k ph' t ph'' t' Hin Ht Hf. pbinds Hf. inv Hf. split; [reflexivity|exact I].
Qed.
Lemma loop_phim P L G L' G' j k : p_seg P = true -> p2g_lens P G -> p2g_loop P L G = Ok (L', G') ->
  nth j (nth k (g_phim G') []) 0 = nth j (nth k (g_phim G) []) 0 + psum L (fun _ p => pm p * wt P p k * nth j (pphi p) 0).
Proof.
  intros SEG HL H. eapply (p2g_loop_acc P L G L' G' (fun G => nth j (nth k (g_phim G) []) 0) (fun _ p => pm p * wt P p k * nth j (pphi p) 0)) in H; auto.
  - apply H.
  - intros ph p t t' _ _ Ht Hf. cbv beta. eapply p2g_phim; eauto.
Qed.
Lemma wipe_phim P (G : grid R) j k : p_seg P = true -> nth j (nth k (g_phim (wipe P G)) []) 0 = 0.
Proof.
  intros SEG. unfold wipe. rewrite SEG. cbn. destruct (Nat.lt_ge_cases k (nodes (pG P))) as [Hk|Hk].
  - rewrite nth_repeat_any by exact Hk. apply nth_repeat_same.
  - rewrite (nth_overflow (repeat _ _)) by (rewrite repeat_length; exact Hk). destruct j; reflexivity.
Qed.
Lemma p2g_all_phi P L G : p_seg P = true -> forall G', p2g_all P L G = Ok G' -> exists L1 G1, p2g_loop P L G = Ok (L1, G1) /\ gm G' = gm G1 /\
  g_phim G' = g_phim G1 /\ g_phi G' = g_phi G1 /\ g_sbar G' = map (fun row => Rsum (zipw Rmult (gs (pG P)) row)) (g_phi G1).
Proof.
  intros SEG G' H. unfold p2g_all in H. pbinds H. inv H. exists b, b0. split; [exact E|]. rewrite SEG. cbn.
  assert (N1 : forall l : list (list R), map (map (fun x => x)) l = l).
  { intros l. rewrite <- (map_id l) at 2. apply map_ext. intros r. apply map_id. }
  split; [reflexivity|]. split; [reflexivity|]. split; [apply N1|]. rewrite N1. apply map_ext. intros r. apply lsum_Rsum.
Qed.
Lemma zipw_bounds lo hi (s f : list R) : length s = length f -> Forall (fun a => lo <= a <= hi) s -> Forall (fun a => 0 <= a <= 1) f ->
  lo * Rsum f <= Rsum (zipw Rmult s f) <= hi * Rsum f.
Proof.
  revert f. induction s as [|a s IH]; intros [|b f] HL HS HF; try discriminate; cbn [zipw Rsum fold_right]; [cbn; lra|].
  inversion HS as [|? ? [A1 A2] HS']; subst. inversion HF as [|? ? [B1 B2] HF']; subst. injection HL as HL. specialize (IH f HL HS' HF').
  unfold Rsum in *. cbn [fold_right]. nra.
Qed.
(** Fractions of the points of a phase are averaged with the masses that the
    points give to the node. *)
Lemma p_C36_nodal_fractions : forall P L G G', proper (pG P) -> p_seg P = true -> length (gs (pG P)) = ns (pG P) ->
  all_live L (fun _ p => located (pG P) p /\ 0 < pm p /\ fractions (ns (pG P)) (pphi p)) ->
  p2g_all P L (wipe P G) = Ok G' -> forall k, (k < nodes (pG P))%nat ->
  (0 < nth k (gm G') 0 ->
     fractions (ns (pG P)) (nth k (g_phi G') []) /\
     (forall j, nth j (nth k (g_phi G') []) 0 * nth k (gm G') 0 = psum L (fun _ p => pm p * hat (pG P) (px p) k * nth j (pphi p) 0)) /\
     forall lo hi, Forall (fun s => lo <= s <= hi) (gs (pG P)) -> lo <= nth k (g_sbar G') 0 <= hi) /\
  (nth k (gm G') 0 <= 0 -> nth k (gm G') 0 = 0 /\ forall j, nth j (nth k (g_phim G') []) 0 = 0).
Proof.
  intros P L G G' HP SEG HS HA H k Hk.
  destruct (p2g_all_mass P L _ _ (wipe_lens P G) H) as (Lm & Re & M). specialize (M k). rewrite wipe_m, Rplus_0_l in M.
  destruct (p2g_all_phi P L _ SEG _ H) as (L1 & G1 & E & Em & Ep & Ef & Es).
  assert (HW : forall ph p, In ph L -> In p (live ph) -> 0 <= pm p * wt P p k).
  { intros ph p A B. destruct (HA ph p A B) as (HL & Hm & _). rewrite wt_hat by assumption. pose proof (hat_nonneg (pG P) (px p) k). nra. }
  assert (PH : forall j, nth j (nth k (g_phim G1) []) 0 = psum L (fun _ p => pm p * wt P p k * nth j (pphi p) 0)).
  { intros j. rewrite (loop_phim P L _ _ _ j k SEG (wipe_lens P G) E), wipe_phim by exact SEG. ring. }
  assert (PB : forall ph p j, In ph L -> In p (live ph) -> 0 <= nth j (pphi p) 0 <= 1).
  { intros ph p j A B. destruct (HA ph p A B) as (_ & _ & (FL & FB & _)). destruct (Nat.lt_ge_cases j (length (pphi p))) as [Hj|Hj].
    - apply (proj1 (Forall_forall _ _) FB), nth_In. exact Hj.
    - rewrite nth_overflow by exact Hj. lra. }
  destruct (p2g_loop_spec P L _ _ _ (wipe_lens P G) E) as (_ & (Lg & _ & L3) & _). destruct (L3 SEG) as [L4 _].
  pose proof (loop_seg P L _ _ _ E (wipe_seg P G)) as SO. specialize (SO SEG).
  assert (RL : length (nth k (g_phim G1) []) = ns (pG P)) by (apply (proj1 (Forall_forall _ _) SO), nth_In; rewrite L4; exact Hk).
  split.
  - intros MP. assert (NZ : L <> []).
    { intros ->. rewrite M in MP. cbn in MP. lra. }
    destruct (loop_phi P L _ _ _ SEG E) as [[? _]|EF]; [contradiction|].
    assert (ROW : nth k (g_phi G') [] = map (fun a => a / nth k (gm G') 0) (nth k (g_phim G1) [])).
    { rewrite Ef, EF. unfold node_fractions. rewrite (zipw_nth _ _ _ _ [] 0) by lia. rewrite Em. reflexivity. }
    assert (RJ : forall j, nth j (nth k (g_phi G') []) 0 = nth j (nth k (g_phim G1) []) 0 / nth k (gm G') 0).
    { intros j. rewrite ROW. destruct (Nat.lt_ge_cases j (ns (pG P))) as [Hj|Hj].
      - rewrite nth_map_lt with (d := 0) by lia. reflexivity.
      - rewrite !nth_overflow by (rewrite ?map_length; lia). unfold Rdiv. ring. }
    assert (FR : fractions (ns (pG P)) (nth k (g_phi G') [])).
    { split; [rewrite ROW, map_length; exact RL|]. split.
      - apply Forall_forall. intros x Hx. destruct (In_nth _ _ 0 Hx) as (j & Hj & <-). rewrite RJ, PH.
        assert (0 <= psum L (fun _ p => pm p * wt P p k * nth j (pphi p) 0) <= nth k (gm G') 0).
        { split; [apply psum_nonneg; intros ph p A B; specialize (HW ph p A B); specialize (PB ph p j A B); nra|].
          rewrite M. apply psum_le. intros ph p A B. specialize (HW ph p A B). specialize (PB ph p j A B). nra. }
        split; [apply Rmult_le_pos; [lra|left; apply Rinv_0_lt_compat; exact MP]|].
        apply (Rmult_le_reg_r (nth k (gm G') 0)); [exact MP|]. unfold Rdiv. rewrite Rmult_assoc, Rinv_l by lra. lra.
      - rewrite Rsum_fsum. replace (length (nth k (g_phi G') [])) with (ns (pG P)) by (rewrite ROW, map_length; congruence).
        rewrite (fsum_ext _ _ (fun j => / nth k (gm G') 0 * psum L (fun _ p => pm p * wt P p k * nth j (pphi p) 0))).
        2:{ intros j Hj. rewrite RJ, PH. unfold Rdiv. ring. }
        rewrite (fsum_scal _ _ (fun j => psum L (fun _ p => pm p * wt P p k * nth j (pphi p) 0))), psum_swap.
        rewrite (psum_ext _ _ (fun _ p => pm p * wt P p k)).
        2:{ intros ph p A B. destruct (HA ph p A B) as (_ & _ & (FL & _ & FS)). rewrite (fsum_scal _ _ (fun j => nth j (pphi p) 0)).
            rewrite <- FL, <- Rsum_fsum, FS. ring. }
        unfold mass_at in M. rewrite <- M. field. lra. }
    split; [exact FR|]. split.
    + intros j. rewrite RJ, PH. unfold Rdiv. rewrite Rmult_assoc, Rinv_l, Rmult_1_r by lra.
      apply psum_ext. intros ph p A B. rewrite wt_hat; [reflexivity|exact HP|apply (HA ph p A B)].
    + intros lo hi HB. rewrite Es, <- Ef. destruct FR as (F1 & F2 & F3).
      assert (LF : length (g_phi G') = nodes (pG P)) by (rewrite Ef, EF; unfold node_fractions; rewrite zipw_length; lia).
      rewrite nth_map_lt with (d := []) by lia. pose proof (zipw_bounds lo hi (gs (pG P)) (nth k (g_phi G') []) ltac:(lia) HB F2) as Z. rewrite F3 in Z. lra.
  - intros M0. unfold mass_at in M. assert (MZ : nth k (gm G') 0 = 0).
    { apply Rle_antisym; [exact M0|]. rewrite M. apply psum_nonneg. exact HW. }
    split; [exact MZ|]. intros j. rewrite Ep, PH. apply Rle_antisym.
    + apply Rle_trans with (nth k (gm G') 0); [|lra]. rewrite M. apply psum_le. intros ph p A B. specialize (HW ph p A B). specialize (PB ph p j A B). nra.
    + apply psum_nonneg. intros ph p A B. specialize (HW ph p A B). specialize (PB ph p j A B). nra.
Qed.
(** At nodes without mass the division gives NaN, which is replaced by zero. *)
Lemma p_C36_massless : forall row : list (X R), Forall (fun a => a = Fin 0) row ->
  map nan0 (map (fun a => ndiv (T := X R) a (Fin 0)) row) = repeat (Fin 0) (length row).
Proof.
  intros row H. induction H as [|a l -> H IH]; [reflexivity|]. cbn [map length repeat]. f_equal; [|exact IH].
  cbn. unfold Rltb, Reqb. destruct (Req_EM_T 0 0) as [_|N]; [|contradiction].
  unfold xinf_sign. cbn. unfold Rltb, Reqb. destruct (Rlt_dec 0 0) as [N|_]; [lra|reflexivity].
Qed.
Example x_C36_nodal_fractions : exists P G G', p_seg P = true /\ length (gs (pG P)) = ns (pG P) /\
  all_live (map (fun ph => ph <| ph_pts := map (locate (pG P)) (ph_pts ph) |>) (ex_L Elastic))
    (fun _ p => located (pG P) p /\ 0 < pm p /\ fractions (ns (pG P)) (pphi p)) /\
  p2g_all P (map (fun ph => ph <| ph_pts := map (locate (pG P)) (ph_pts ph) |>) (ex_L Elastic)) (wipe P G) = Ok G' /\
  0 < nth 0 (gm G') 0.
Proof.
  set (P := ex_params (T := R) ex_bounds <| p_seg := true |>).
  set (L := map (fun ph => ph <| ph_pts := map (locate (pG P)) (ph_pts ph) |>) (ex_L (T := R) Elastic)).
  destruct (grid_init_ok ex_gridp ex_bounds ex_proper) as (G & EG & OK). exists P, G.
  assert (A : all_live L (fun _ p => located (pG P) p /\ 0 < pm p /\ fractions (ns (pG P)) (pphi p))).
  { intros ph p [<-|[]] Hp. cbn in Hp.
    assert (X : located (pG P) p /\ pm p = 2 /\ pphi p = [nhalf; nhalf]).
    { destruct Hp as [<-|[<-|[]]]; split; try (split; reflexivity).
      - apply locate_located. apply (ex_dom Elastic (ex_phase Elastic)); cbn; auto.
      - apply locate_located. apply (ex_dom Elastic (ex_phase Elastic)); cbn; auto. }
    destruct X as (X1 & X2 & X3). split; [exact X1|]. rewrite X2, X3. split; [lra|]. unfold nhalf, lit. cbn.
    split; [reflexivity|]. split; [repeat constructor; cbn; lra|cbn; lra]. }
  destruct (p2g_all_total P L (wipe P G)) as [G' E].
  - apply wipe_lens.
  - apply wipe_seg.
  - intros ph [<-|[]]. cbn. lia.
  - intros ph p H1 H2. destruct (A ph p H1 H2) as (X1 & _ & X3). split; [apply located_reaches; [exact ex_proper|exact X1]|intros _; apply X3].
  - exists G'. split; [reflexivity|]. split; [reflexivity|]. split; [exact A|]. split; [exact E|].
    destruct (p2g_all_mass P L _ _ (wipe_lens P G) E) as (_ & _ & M). rewrite M, wipe_m, Rplus_0_l. unfold mass_at.
    apply Rlt_le_trans with (pm (locate (pG P) ex_p1) * wt P (locate (pG P) ex_p1) 0).
    + rewrite wt_hat; [|exact ex_proper|apply locate_located; apply (ex_dom Elastic (ex_phase Elastic)); cbn; auto].
      unfold hat, node_x, node_y, cell_w, cell_h, col, row, tent. cbn. unfold nhalf, lit. cbn. unfold Rabs, Rmax.
      repeat (destruct (Rcase_abs _); [|]); repeat (destruct (Rle_dec _ _); [|]); lra.
    + apply (psum_ge_elem L (fun _ p => pm p * wt P p 0) (hd (ex_phase Elastic) L)).
      * intros ph p H1 H2. destruct (A ph p H1 H2) as (X1 & X2 & _). rewrite wt_hat; [|exact ex_proper|exact X1].
        pose proof (hat_nonneg (pG P) (px p) 0). nra.
      * cbn. auto.
      * cbn. auto.
Qed.

(** ** C41 *)
(** The fractions [l] scaled to sum to one after negative ones are set to zero
    and those above one to one. *)
Lemma normalise_ok (l : list R) : Exists (fun a => 0 < a) l -> fractions (length l) (normalise l).
Proof.
  intros H. unfold normalise. cbv zeta. set (f := map (fun a => if (n1 <? a)%num then n1 else a) (map (fun a => if (a <? n0)%num then n0 else a) l)).
  assert (FL : length f = length l) by (unfold f; rewrite !map_length; reflexivity).
  assert (F0 : Forall (fun a => 0 <= a) f).
  { unfold f. rewrite map_map, Forall_map. apply Forall_forall. intros a _. cbn. unfold Rltb.
    destruct (Rlt_dec a 0) as [A|A]; [destruct (Rlt_dec 1 0); lra|destruct (Rlt_dec 1 a); lra]. }
  assert (FP : Exists (fun a => 0 < a) f).
  { unfold f. rewrite map_map. apply Exists_exists in H. destruct H as (a & Ha & P0). apply Exists_exists. eexists. split; [apply in_map; exact Ha|].
    cbn. unfold Rltb. destruct (Rlt_dec a 0) as [A|A]; [lra|]. destruct (Rlt_dec 1 a); lra. }
  clearbody f. rewrite lsum_Rsum.
  assert (SP : 0 < Rsum f).
  { clear - F0 FP. induction FP as [a f Ha|a f FP IH]; inversion F0 as [|? ? A0 F1]; subst; cbn [Rsum fold_right]; unfold Rsum in *; cbn [fold_right].
    - assert (0 <= fold_right Rplus 0 f) by (clear - F1; induction F1 as [|b f Hb F1 IH]; cbn; lra). lra.
    - specialize (IH F1). lra. }
  assert (LE : Forall (fun a => 0 <= a <= Rsum f) f).
  { clear - F0. induction F0 as [|a f Ha F IH]; constructor.
    - split; [exact Ha|]. assert (0 <= Rsum f) by (clear - F; unfold Rsum; induction F as [|b f Hb F1 IH]; cbn; lra). unfold Rsum in *. cbn. lra.
    - eapply Forall_impl; [|exact IH]. cbv beta. intros b Hb. unfold Rsum in *. cbn. lra. }
  split; [rewrite map_length; exact FL|]. split.
  - rewrite Forall_map. eapply Forall_impl; [|exact LE]. cbv beta. intros a [A B]. cbn. split.
    + apply Rmult_le_pos; [exact A|left; apply Rinv_0_lt_compat; exact SP].
    + apply (Rmult_le_reg_r (Rsum f)); [exact SP|]. unfold Rdiv. rewrite Rmult_assoc, Rinv_l by lra. lra.
  - rewrite (map_ext _ (fun a => / Rsum f * a)) by (intros a; cbn; unfold Rdiv; ring). rewrite (Rsum_scal (/ Rsum f) (fun a => a)), map_id. apply Rinv_l. lra.
Qed.
(** Valid fractions are left alone. *)
Lemma p_C41_valid : forall n (l : list R), fractions n l -> normalise l = l.
Proof.
  intros n l (HL & HF & HS). unfold normalise. cbv zeta.
  assert (E : map (fun a => if (n1 <? a)%num then n1 else a) (map (fun a => if (a <? n0)%num then n0 else a) l) = l).
  { clear HL HS. induction HF as [|a l Ha HF IH]; [reflexivity|]. cbn [map]. f_equal; [|exact IH]. cbn. unfold Rltb.
    destruct (Rlt_dec a 0); [lra|]. destruct (Rlt_dec 1 a); [lra|reflexivity]. }
  rewrite E, lsum_Rsum, HS. rewrite <- (map_id l) at 2. apply map_ext. intros a. cbn. field.
Qed.
(** Fractions of point [p] after the increments of the grid are added. *)
Definition incremented (P : params R) (G : grid R) (p : particle R) (f : list R) : Prop :=
  length f = length (pphi p) /\ forall j, nth j f 0 = nth j (pphi p) 0 +
    fsum (nodes (pG P)) (fun k => hat (pG P) (px p) k * (if Rlt_dec (p_Mtol P) (nth k (gm G) 0) then nth j (nth k (g_dphi G) []) 0 else 0)).
Lemma map_phi_inc P G p p' : proper (pG P) -> located (pG P) p -> length (gm G) = nodes (pG P) -> length (g_dphi G) = nodes (pG P) ->
  map_phi_to_mp P G p = Ok p' -> incremented P G p (pphi p') /\ p' = p <| pphi := pphi p' |> <| ppk := ppk p' |>.
Proof.
  intros HP HL LM LD H. unfold map_phi_to_mp in H.
  set (D := fun j k => if Rlt_dec (p_Mtol P) (nth k (gm G) 0) then nth j (nth k (g_dphi G) []) 0 else 0).
  assert (ST : forall j r t t', (r < 4)%nat -> (length (pphi t) = length (pphi p) /\ t = p <| pphi := pphi t |> <| ppk := ppk t |>) ->
    (m <- py_get (gm G) (nearby (pnstar p) r (nx (pG P))) ;;
         if (p_Mtol P <? m)%num then
           d <- py_get (g_dphi G) (nearby (pnstar p) r (nx (pG P))) ;;
           f <- row_add (pphi t) (map (fun a => Nr t r * a)%num d) ;;
           k <- py_get (g_dpk G) (nearby (pnstar p) r (nx (pG P))) ;;
           Ok (t <| pphi := f |> <| ppk := (ppk t + Nr t r * k)%num |>)
         else Ok t) = Ok t' ->
    (length (pphi t') = length (pphi p) /\ t' = p <| pphi := pphi t' |> <| ppk := ppk t' |>) /\ True /\
    nth j (pphi t') 0 = nth j (pphi t) 0 + Nr p r * D j (corner_node (pG P) (cell_node (pG P) (px p)) r)).
  { intros j r t t' Hr (TL & TE) Hf. pose proof HL as (HD & EN & _).
    set (c := corner_node (pG P) (cell_node (pG P) (px p)) r) in *.
    assert (GA : forall A (l : list A) d, length l = nodes (pG P) -> py_get l (nearby (pnstar p) r (nx (pG P))) = Ok (nth c l d)).
    { intros A l d EL. rewrite EN. apply py_get_some. rewrite EL. apply corner_in_range; auto. }
    rewrite (GA _ _ 0 LM) in Hf. cbn [bind] in Hf. unfold D. cbn in Hf. unfold Rltb in Hf.
    destruct (Rlt_dec (p_Mtol P) (nth c (gm G) 0)) as [HM|HM].
    - rewrite (GA _ _ [] LD) in Hf. cbn [bind] in Hf. pbinds Hf. inv Hf. cbn [pphi ppk set].
      assert (NN : Nr t r = Nr p r) by (rewrite TE; reflexivity).
      pose proof (row_add_nth P _ _ _ j E) as RA. unfold row_add in E.
      match type of E with (if Nat.eqb ?x ?y then _ else _) = _ => destruct (Nat.eqb_spec x y) as [EL|]; [|discriminate] end.
      injection E as <-. cbn. split; [|split; [exact I|]].
      + split; [rewrite zipw_length, <- EL, Nat.min_id; exact TL|]. rewrite TE. reflexivity.
      + transitivity (nth j (zipw Rplus (pphi t) (map (fun a => Nr t r * a) (nth c (g_dphi G) []))) 0); [reflexivity|].
        cbn in RA. rewrite RA. f_equal. rewrite map_length in EL. rewrite NN.
        destruct (Nat.lt_ge_cases j (length (nth c (g_dphi G) []))) as [Hj|Hj].
        * rewrite nth_map_lt with (d := 0) by exact Hj. reflexivity.
        * rewrite !nth_overflow by (rewrite ?map_length; exact Hj). lra.
    - inv Hf. split; [split; assumption|]. split; [exact I|]. lra. }
  assert (FIN : forall j, (length (pphi p') = length (pphi p) /\ p' = p <| pphi := pphi p' |> <| ppk := ppk p' |>) /\
     nth j (pphi p') 0 = nth j (pphi p) 0 + fsum 4 (fun r => Nr p r * D j (corner_node (pG P) (cell_node (pG P) (px p)) r))).
  { intros j. eapply (four_acc P (pnstar p) _ (fun t => length (pphi t) = length (pphi p) /\ t = p <| pphi := pphi t |> <| ppk := ppk t |>) (fun _ => True)
      (fun t => nth j (pphi t) 0) (fun r => Nr p r * D j (corner_node (pG P) (cell_node (pG P) (px p)) r))) in H.
    - destruct H as (A & _ & B). split; [exact A|exact B].
    - split; [reflexivity|]. destruct p; reflexivity.
    - intros r t t' Hr It Hf. apply (ST j r t t' Hr It Hf). }
  split; [|exact (proj2 (proj1 (FIN 0%nat)))]. split; [exact (proj1 (proj1 (FIN 0%nat)))|]. intros j. rewrite (proj2 (FIN j)). f_equal.
  rewrite (fsum_ext (nodes (pG P)) _ (fun k => D j k * fsum 4 (fun r => hit (nodes (pG P)) (nearby (pnstar p) r (nx (pG P))) k * Nr p r))).
  - rewrite moment_sum by assumption. apply fsum_ext. intros r Hr. ring.
  - intros k Hk. rewrite <- (wt_hat P p k HP HL). unfold wt, D. ring.
Qed.
(** After [move_grainsize_on_grid] with [normalise_phi] every point that has some
    positive fraction once the increments are added has valid fractions. *)
Lemma p_C41_normalised : forall P G L L', proper (pG P) -> p_norm P = true -> length (gm G) = nodes (pG P) -> length (g_dphi G) = nodes (pG P) ->
  all_live L (fun _ p => located (pG P) p) -> move_grainsize P G L = Ok L' ->
  Lrel (fun _ p p' => exists f, incremented P G p f /\ (Exists (fun a => 0 < a) f -> fractions (length (pphi p)) (pphi p')) /\
                      (forall n, fractions n f -> pphi p' = f)) L L'.
Proof.
  intros P G L L' HP NM LM LD HA H. unfold move_grainsize in H. pbinds H. rewrite NM in H.
  eapply (Lrel_trans (fun _ p p' => incremented P G p (pphi p')) (fun _ p p' => p' = p <| pphi := normalise (pphi p) |>)).
  - eapply points__rel; [|exact E]. intros k ph p p' Hin Hp Hf. exact (proj1 (map_phi_inc P G p p' HP (HA _ _ Hin Hp) LM LD Hf)).
  - eapply points__rel; [|exact H]. intros k ph p p' Hin Hp Hf. injection Hf as <-. reflexivity.
  - intros ph ph' p p' p'' _ _ _ _ I1 ->. exists (pphi p'). split; [exact I1|]. cbn [pphi set]. split.
    + intros HE. rewrite <- (proj1 I1). apply normalise_ok. exact HE.
    + intros n. apply p_C41_valid.
Qed.
(** Without [normalise_phi] the increments are added and nothing is corrected. *)
Lemma p_C41_plain : forall P G L L', proper (pG P) -> p_norm P = false -> length (gm G) = nodes (pG P) -> length (g_dphi G) = nodes (pG P) ->
  all_live L (fun _ p => located (pG P) p) -> move_grainsize P G L = Ok L' -> Lrel (fun _ p p' => incremented P G p (pphi p')) L L'.
Proof.
  intros P G L L' HP NM LM LD HA H. unfold move_grainsize in H. pbinds H. rewrite NM in H. inv H.
  eapply points__rel; [|exact E]. intros k ph p p' Hin Hp Hf. exact (proj1 (map_phi_inc P G p p' HP (HA _ _ Hin Hp) LM LD Hf)).
Qed.
(** Without a positive fraction the division is 0/0. *)
Lemma p_C41_none_refuted : forall l : list R, l <> [] -> Forall (fun a => a <= 0) l ->
  normalise (T := X R) (map Fin l) = repeat NaN (length l).
Proof.
  intros l NE H. unfold normalise. cbv zeta.
  assert (E : map (fun a : X R => if (n1 <? a)%num then n1 else a) (map (fun a : X R => if (a <? n0)%num then n0 else a) (map Fin l)) = repeat (Fin 0) (length l)).
  { clear NE. induction H as [|a l Ha H IH]; [reflexivity|]. cbn [map length repeat]. f_equal; [|exact IH]. cbn. unfold Rltb.
    destruct (Rlt_dec a 0) as [A|A]; cbn; unfold Rltb.
    - destruct (Rlt_dec 1 0); [lra|reflexivity].
    - destruct (Rlt_dec 1 a); [lra|]. f_equal. lra. }
  rewrite E. assert (S0 : lsum (T := X R) (repeat (Fin 0) (length l)) = Fin 0).
  { unfold lsum. generalize (length l). intros n. assert (Z : forall n, fold_left nadd (repeat (Fin 0) n) (Fin 0 : X R) = Fin 0).
    { clear. induction n as [|n IH]; [reflexivity|]. cbn [repeat fold_left]. replace (Fin 0 + Fin 0 : X R)%num with (Fin 0 : X R) by (cbn; f_equal; lra). exact IH. }
    exact (Z n). }
  rewrite S0. assert (D0 : forall n, map (fun a : X R => (a / Fin 0)%num) (repeat (Fin 0) n) = repeat NaN n).
  { clear. induction n as [|n IH]; [reflexivity|]. cbn [repeat map]. f_equal; [|exact IH]. cbn. unfold Reqb. destruct (Req_EM_T 0 0); [|lra].
    unfold xinf_sign. cbn. unfold Rltb. destruct (Rlt_dec 0 0); [lra|reflexivity]. }
  apply D0.
Qed.
Example x_C41_normalised : Exists (fun a => 0 < a) [-1/10; 1/2; 3/2] /\ normalise [-1/10; 1/2; 3/2] = [0; 1/3; 2/3] /\ fractions 3 [0; 1/3; 2/3].
Proof.
  split; [apply Exists_cons_tl, Exists_cons_hd; lra|]. split.
  - unfold normalise, lsum. cbn. unfold Rltb.
    destruct (Rlt_dec (-1/10) 0); [|lra]. destruct (Rlt_dec (1/2) 0); [lra|]. destruct (Rlt_dec (3/2) 0); [lra|].
    destruct (Rlt_dec 1 0); [lra|]. destruct (Rlt_dec 1 (1/2)); [lra|]. destruct (Rlt_dec 1 (3/2)); [|lra].
    f_equal; [lra|]. f_equal; [lra|]. f_equal; lra.
  - split; [reflexivity|]. split; [repeat constructor; lra|cbn; lra].
Qed.
