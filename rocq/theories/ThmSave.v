(** * The data files show the step that was just made: C115. *)
From Coq Require Import ZArith Reals List Bool Arith Lra Lia FunctionalExtensionality.
From RecordUpdate Require Import RecordUpdate.
From Verif Require Import State NumR Spec SpecLaws SpecStep SpecScheme SpecLocal LibList LibR ModelGrid ModelConstit ModelParticle ModelMPList
  ModelIntegr ModelMain ModelSave ProofsGrid ProofsMap ProofsP2G ProofsWalls ProofsLaws ProofsInOut ProofsHist Concrete
  ThmMapping ThmWalls ThmLaws ThmInOut ThmHist ProofsStep ProofsPoints ThmStep ThmBalance ThmEnergy ThmFall ThmGeo ProofsRing ThmRing ThmSift ThmGrade ThmFrac ThmFill ProofsSave.
Import ListNotations.
Local Open Scope R_scope.

(** The number in row [j] and column [i] of a saved table. *)
Definition cell {T} (d : T) (D : list (list T)) (i j : nat) : T := nth i (nth j D []) d.
(** A table with a row for every row of nodes and a column for every column of nodes. *)
Definition gridlike {T U} (P : gridp T) (D : list (list U)) : Prop := length D = ny P /\ Forall (fun r => length r = nx P) D.

(** ** The layout of a table *)
Lemma nth_firstn_lt {A} (l : list A) n i d : (i < n)%nat -> nth i (firstn n l) d = nth i l d.
Proof. revert n i. induction l as [|a l IH]; intros [|n] [|i] H; cbn; try lia; try reflexivity. apply IH. lia. Qed.
Lemma nth_skipn_add {A} (l : list A) n i d : nth i (skipn n l) d = nth (n + i) l d.
Proof. revert n. induction l as [|a l IH]; intros [|n]; cbn; try reflexivity; [destruct i; reflexivity|]. apply IH. Qed.
Lemma reshape_spec {T} {N : Num T} (P : gridp T) (a : list T) d : length a = (nx P * ny P)%nat ->
  exists D, reshape P a = Ok D /\ gridlike P D /\ forall i j, (i < nx P)%nat -> (j < ny P)%nat -> cell d D i j = nth (j * nx P + i) a d.
Proof.
  intros HL. unfold reshape. rewrite HL, (Nat.mul_comm (nx P)), Nat.eqb_refl. eexists. split; [reflexivity|].
  assert (B : forall j, (j < ny P)%nat -> (j * nx P + nx P <= length a)%nat) by (intros j Hj; rewrite HL; nia).
  split; [split|].
  - rewrite map_length, seq_length. reflexivity.
  - apply Forall_forall. intros r Hr. apply in_map_iff in Hr as (j & <- & Hj). apply in_seq in Hj. specialize (B j ltac:(lia)).
    rewrite firstn_length, skipn_length. lia.
  - intros i j Hi Hj. specialize (B j Hj). unfold cell.
    rewrite (nth_indep _ [] (firstn (nx P) (skipn (0 * nx P) a))) by (rewrite map_length, seq_length; exact Hj).
    rewrite (map_nth (fun j => firstn (nx P) (skipn (j * nx P) a))), seq_nth by exact Hj. cbn [Nat.add].
    rewrite nth_firstn_lt by exact Hi. apply nth_skipn_add.
Qed.

(** ** What the grid holds at the end of a step *)
Lemma wiped_mass uf fill (s s' : state R) : proper (pG (sP s)) -> grid_ok (pG (sP s)) (sG s) ->
  all_live (sL s) (fun _ p => in_dom (pG (sP s)) (px p)) -> time_march uf fill s = Ok s' ->
  let M k := psum (sL s) (fun _ p => pm p * hat (pG (sP s)) (px p) k) in
  forall k, (k < nodes (pG (sP s)))%nat -> nth k (gm (sG s')) 0 = if cyclic_lr (pB (sP s)) then tie (pG (sP s)) M k else M k.
Proof.
  intros HP HG HD E M k Hk. destruct (march_any uf fill s s' HP HG HD E) as (L3 & L4 & L5 & G1 & Gc & R3 & E2 & EC & _ & EP & EM & EV & ES & LM & LQ & L1 & _).
  set (P := sP s <| p_loads := uf (sP s) |>) in *. set (Pg := pG (sP s)) in *. rewrite EM.
  assert (M1 : forall j, (j < nodes Pg)%nat -> nth j (gm G1) 0 = M j).
  { intros j Hj. destruct (p2g_all_mass P L3 _ G1 (wipe_lens P (sG s)) E2) as (_ & _ & X). rewrite X, wipe_m, Rplus_0_l. unfold mass_at, M.
    rewrite (psum_ext L3 _ (fun _ p => pm p * hat Pg (px p) j)).
    2:{ intros ph p A C. rewrite (wt_hat P p j HP); [reflexivity|].
        assert (D3 : all_live L3 (fun ph p => located Pg p)).
        { eapply (Lrel_all_live _ (sL s) L3); [exact R3| |intros ? ? ? ?; exact I]. cbv beta. intros ? ? ? ? _ _ _ _ _ [D [b ->]] _. apply locate_located. exact D. }
        apply (D3 ph p A C). }
    symmetry. eapply Lrel_psum; [exact R3|]. cbv beta. intros ph p ph' p' _ _ _ _ _ [_ [b ->]]. reflexivity. }
  change (cyclic_lr (pB P)) with (cyclic_lr (pB (sP s))) in EC. destruct (cyclic_lr (pB (sP s))).
  - unfold cyc_mq in EC. pbinds EC. injection EC as <-. cbn [gm set].
    match goal with H : cyc nadd _ _ = Ok ?x |- _ => rename H into ECM end. change (nx (pG P)) with (nx Pg) in ECM.
    destruct (cyc_tie Pg HP nadd 0 (fun x => x) (gm G1) _ nadd_R L1 ECM) as [_ X]. rewrite X by exact Hk.
    apply tie_ext; [exact HP|exact Hk|exact M1].
  - injection EC as <-. apply M1, Hk.
Qed.

(** ** C115 *)
(** The volume that the code gives to the node in column [i] and row [j]: a cell, a half of it along an edge, a quarter in
    a corner; when the ends are joined the left and the right edge are inside. *)
Definition share_of (P : gridp R) (ring : bool) (i j : nat) : R :=
  cell_w P * cell_h P * thickness P * (edge_weight (ny P) j * (if ring then 1 else edge_weight (nx P) i)).
(** The mass that the points give to the node: its tent function, and on joined ends that of its partner too. *)
Definition gathered_mass (P : gridp R) (ring : bool) (L : list (phase R)) (i j : nat) : R :=
  let at_ i := psum L (fun _ p => pm p * hat P (px p) (j * nx P + i)) in
  at_ i + (if ring then if Nat.eqb i 0 then at_ (nx P - 1)%nat else if Nat.eqb i (nx P - 1) then at_ 0%nat else 0 else 0).

Lemma col_of (P : gridp R) i j : (i < nx P)%nat -> col P (j * nx P + i) = i /\ row P (j * nx P + i) = j.
Proof.
  intros Hi. unfold col, row. rewrite Nat.add_comm. split.
  - rewrite Nat.mod_add by lia. apply Nat.mod_small, Hi.
  - rewrite Nat.div_add by lia. rewrite Nat.div_small by exact Hi. lia.
Qed.

(** The file of [save_density], written after a step with any options, has a row for every row of nodes from the bottom up
    and in each row a number for every node from left to right: the mass that the points, as they were at the start of the
    step, gave to the node, divided by the node's share of the volume. *)
Lemma p_C115_density : forall uf fill (s s' : state R) G0, proper (pG (sP s)) -> 0 < thickness (pG (sP s)) -> grid_ok (pG (sP s)) (sG s) ->
  grid_init (pG (sP s)) (pB (sP s)) = Ok G0 -> gV (sG s) = gV G0 ->
  all_live (sL s) (fun _ p => in_dom (pG (sP s)) (px p)) -> time_march uf fill s = Ok s' ->
  exists D, save_density (sP s') (sG s') = Ok D /\ gridlike (pG (sP s)) D /\
  forall i j, (i < nx (pG (sP s)))%nat -> (j < ny (pG (sP s)))%nat ->
    0 < share_of (pG (sP s)) (cyclic_lr (pB (sP s))) i j /\
    cell 0 D i j = gathered_mass (pG (sP s)) (cyclic_lr (pB (sP s))) (sL s) i j / share_of (pG (sP s)) (cyclic_lr (pB (sP s))) i j.
Proof.
  intros uf fill s s' G0 HP HT HG E0 EV0 HD E.
  destruct (march_any uf fill s s' HP HG HD E) as (L3 & L4 & L5 & G1 & Gc & R3 & E2 & EC & _ & EP & EM & EV & ES & LM & LQ & L1 & _).
  pose proof (wiped_mass uf fill s s' HP HG HD E) as WM. cbv zeta in WM. set (Pg := pG (sP s)) in *.
  assert (LZ : length (zipw ndiv (gm (sG s')) (gV (sG s'))) = (nx Pg * ny Pg)%nat).
  { rewrite zipw_length, LM, EV, (go_Vlen _ _ HG). unfold nodes. lia. }
  assert (EPg : pG (sP s') = Pg) by (rewrite EP; reflexivity).
  destruct (reshape_spec Pg _ 0 LZ) as (D & ED & GL & DC).
  exists D. split; [unfold save_density; rewrite EPg; exact ED|]. split; [exact GL|]. intros i j Hi Hj.
  assert (Hk : (j * nx Pg + i < nx Pg * ny Pg)%nat) by nia.
  destruct (col_of Pg i j Hi) as [C1 C2].
  pose proof (p_C15_nodal_volume Pg _ G0 HP E0 _ Hk) as VV. rewrite C1, C2 in VV.
  destruct (p_C15_volumes_positive Pg _ G0 HP E0 HT) as [_ VP]. specialize (VP _ Hk).
  assert (SH : share_of Pg (cyclic_lr (pB (sP s))) i j = nth (j * nx Pg + i) (gV G0) 0) by (rewrite VV; reflexivity).
  split; [rewrite SH; exact VP|]. rewrite (DC i j Hi Hj).
  rewrite (zipw_nth ndiv _ _ _ 0 0 0) by (rewrite ?LM, ?EV, ?(go_Vlen _ _ HG); exact Hk). rewrite EV, EV0, SH. unR. f_equal.
  rewrite (WM _ Hk). unfold gathered_mass, tie. unfold col in C1. rewrite C1.
  destruct (cyclic_lr (pB (sP s))); [|ring]. f_equal.
  destruct (Nat.eqb_spec i 0) as [->|]; [f_equal; extensionality ph; extensionality p; do 2 f_equal; lia|].
  destruct (Nat.eqb_spec i (nx Pg - 1)) as [->|]; [|reflexivity]. f_equal. extensionality ph. extensionality p. do 2 f_equal. lia.
Qed.

(** Summed over the table, density times volume is the mass of all points; on joined ends the last column repeats the
    first and is left out. *)
Lemma p_C115_mass : forall uf fill (s s' : state R) G0 D, proper (pG (sP s)) -> 0 < thickness (pG (sP s)) -> grid_ok (pG (sP s)) (sG s) ->
  grid_init (pG (sP s)) (pB (sP s)) = Ok G0 -> gV (sG s) = gV G0 ->
  all_live (sL s) (fun _ p => in_dom (pG (sP s)) (px p)) -> time_march uf fill s = Ok s' -> save_density (sP s') (sG s') = Ok D ->
  let P := pG (sP s) in let ring := cyclic_lr (pB (sP s)) in
  fsum (ny P) (fun j => fsum (if ring then nx P - 1 else nx P)%nat (fun i => cell 0 D i j * share_of P ring i j)) = psum (sL s) (fun _ p => pm p).
Proof.
  intros uf fill s s' G0 D HP HT HG E0 EV0 HD E ED P ring.
  destruct (p_C115_density uf fill s s' G0 HP HT HG E0 EV0 HD E) as (D' & ED' & _ & DC). rewrite ED in ED'. injection ED' as <-. fold P ring in DC.
  set (at_ i j := psum (sL s) (fun _ p => pm p * hat P (px p) (j * nx P + i))).
  assert (TOT : fsum (ny P) (fun j => fsum (nx P) (fun i => at_ i j)) = psum (sL s) (fun _ p => pm p)).
  { unfold at_. rewrite <- (fsum_rows (nx P) (ny P) (fun k => psum (sL s) (fun _ p => pm p * hat P (px p) k))). rewrite psum_swap.
    apply psum_ext. intros ph p A B. rewrite (fsum_scal _ (pm p) (fun k => hat P (px p) k)), Nat.mul_comm.
    destruct (hat_sums P (px p) HP (HD ph p A B)) as [H1 _]. unfold nodes in H1. rewrite H1. ring. }
  rewrite <- TOT. apply fsum_ext. intros j Hj.
  assert (Q : forall i, (i < nx P)%nat -> cell 0 D i j * share_of P ring i j = gathered_mass P ring (sL s) i j).
  { intros i Hi. destruct (DC i j Hi Hj) as [S1 ->]. field. lra. }
  assert (N2 : (2 <= nx P)%nat) by apply HP. destruct ring.
  - rewrite (fsum_ext _ _ (fun i => at_ i j + (if Nat.eqb i 0 then at_ (nx P - 1)%nat j else 0))).
    2:{ intros i Hi. rewrite Q by lia. unfold gathered_mass. fold (at_ i j). f_equal. destruct (Nat.eqb_spec i 0); [reflexivity|].
        destruct (Nat.eqb_spec i (nx P - 1)); [lia|reflexivity]. }
    rewrite fsum_plus. replace (nx P) with (S (nx P - 1)) at 3 by lia. cbn [fsum]. f_equal.
    rewrite (fsum_single _ 0%nat); [reflexivity|lia|]. intros i _ Hi. destruct (Nat.eqb_spec i 0); [contradiction|reflexivity].
  - apply fsum_ext. intros i Hi. rewrite Q by exact Hi. unfold gathered_mass. fold (at_ i j). lra.
Qed.

(** The files of [save_u] hold the velocities with which the points were moved in the step: a point that is not part of an
    intruder went where the saved values, weighted by the tent functions, carry it in one time step.  Nodes that hold no
    more than [M_tol] do not count. *)
Lemma p_C115_velocity : forall uf fill (s s' : state R), proper (pG (sP s)) -> grid_ok (pG (sP s)) (sG s) -> tight (sP s) ->
  (forall ph, In ph (sL s) -> s_law (ph_sol ph) <> Rigid) ->
  all_live (sL s) (fun _ p => in_dom (pG (sP s)) (px p)) -> time_march uf fill s = Ok s' ->
  let P := pG (sP s) in
  exists U V, save_u (sP s') (sG s') = Ok (U, V) /\ gridlike P U /\ gridlike P V /\
  let carry (D : list (list R)) x := fsum (ny P) (fun j => fsum (nx P) (fun i => hat P x (j * nx P + i) *
        (if Rlt_dec (p_Mtol (sP s)) (gathered_mass P false (sL s) i j) then cell 0 D i j else 0))) in
  Prel (fun _ p p' => vx (px p') = vx (px p) + p_dt (sP s) * carry U (px p) /\ vy (px p') = vy (px p) + p_dt (sP s) * carry V (px p)) (sL s) (sL s').
Proof.
  intros uf fill s s' HP HG (Hc & O1 & O2 & I1 & I2) NR HD E Pg.
  destruct (march_any uf fill s s' HP HG HD E) as (L3 & L4 & L5 & G1 & Gc & R3 & E2 & EC & R4 & EP & EM & EV & ES & LM & LQ & L1 & PM & EI).
  pose proof (wiped_mass uf fill s s' HP HG HD E) as WM. cbv zeta in WM. rewrite Hc in WM. fold Pg in WM.
  set (P := sP s <| p_loads := uf (sP s) |>) in *. fold Pg in R3, LM, LQ, L1.
  assert (IO : inout P L5 = Ok L5). { unfold inout. change (pB P) with (pB (sP s)). rewrite O1, O2, I1, I2, Hc. reflexivity. }
  rewrite IO in EI. injection EI as EI. rewrite <- EI.
  assert (LZ : forall f : V3 R -> R -> R, length (zipw f (gq (sG s')) (gm (sG s'))) = (nx Pg * ny Pg)%nat).
  { intros f. rewrite zipw_length, LM, LQ. unfold nodes. lia. }
  assert (EPg : pG (sP s') = Pg) by (rewrite EP; reflexivity).
  destruct (reshape_spec Pg _ 0 (LZ (fun q m => (vx q / m)%num))) as (U & EU & GU & CU).
  destruct (reshape_spec Pg _ 0 (LZ (fun q m => (vy q / m)%num))) as (V & EW & GW & CV).
  exists U, V. split; [unfold save_u; rewrite EPg, EU; cbn [bind]; rewrite EW; reflexivity|]. split; [exact GU|]. split; [exact GW|]. intros carry.
  assert (K : forall (D : list (list R)) a x, (forall i j, (i < nx Pg)%nat -> (j < ny Pg)%nat ->
              cell 0 D i j = comp a (nth (j * nx Pg + i) (gq (sG s')) v0) / nth (j * nx Pg + i) (gm (sG s')) 0) ->
            fsum (nodes Pg) (fun k => hat Pg x k * node_v P (sG s') a k) = carry D x).
  { intros D a x HC. unfold nodes. rewrite Nat.mul_comm, fsum_rows. unfold carry. apply fsum_ext. intros j Hj. apply fsum_ext. intros i Hi. f_equal.
    assert (Hk : (j * nx Pg + i < nodes Pg)%nat) by (unfold nodes; nia).
    unfold node_v, Rltb. rewrite (WM _ Hk), (HC i j Hi Hj), (WM _ Hk). unfold gathered_mass. rewrite Rplus_0_r. change (p_Mtol P) with (p_Mtol (sP s)).
    match goal with |- context [Rlt_dec ?u ?v] => destruct (Rlt_dec u v) end; reflexivity. }
  assert (R5 : Forall2 (fun ph ph' => s_law (ph_sol ph) <> Rigid /\ (ph_sol ph' = ph_sol ph /\ ph_n ph' = ph_n ph /\ ph_sv ph' = ph_sv ph /\
             Forall2 (fun p p' => px p' = px p) (live ph) (live ph') /\
             length (ph_pts ph') = length (ph_pts ph))) (sL s) L4).
  { apply Forall2_conj_l; [|exact NR]. eapply (Lrel_trans _ _ (fun _ p p' => px p' = px p)); [exact R3|exact R4|].
    cbv beta. intros ph ph' p p1 p2 _ _ _ _ [_ [b ->]] [X _]. rewrite X. reflexivity. }
  eapply Forall2_imp; [|exact (Forall2_comp _ _ _ _ _ R5 PM)].
  cbv beta. intros ph ph2 (ph1 & (NR1 & A1 & A2 & A3 & A4 & A5) & (B1 & B2 & B3 & B4 & _)).
  split; [congruence|]. split; [congruence|]. split; [congruence|].
  rewrite A1 in B4. assert (IR : is_rigid (s_law (ph_sol ph)) = false) by (destruct (s_law (ph_sol ph)); try reflexivity; congruence).
  rewrite IR in B4. eapply Forall2_imp; [|exact (Forall2_comp _ _ _ _ _ A4 B4)].
  cbv beta. intros p p2 (p1 & X1 & (Y1 & Y2 & _)). pose proof (Y2 AX) as YX. pose proof (Y2 AY) as YY. cbn [comp] in YX, YY.
  rewrite X1 in YX, YY. change (pG P) with Pg in YX, YY. split.
  - rewrite YX. rewrite (K U AX). { reflexivity. } intros i j Hi Hj. rewrite (CU i j Hi Hj).
    rewrite (zipw_nth _ _ _ _ v0 0 0) by (rewrite ?LQ, ?LM; unfold nodes; nia). reflexivity.
  - rewrite YY. rewrite (K V AY). { reflexivity. } intros i j Hi Hj. rewrite (CV i j Hi Hj).
    rewrite (zipw_nth _ _ _ _ v0 0 0) by (rewrite ?LQ, ?LM; unfold nodes; nia). reflexivity.
Qed.

(** The mean grain size of a point. *)
Definition mean_size (P : gridp R) (p : particle R) : R := Rsum (zipw Rmult (gs P) (pphi p)).

Lemma zipw_pick s : forall f : list R, length s = length f -> Rsum (zipw Rmult s f) = fsum (length s) (fun i => nth i s 0 * nth i f 0).
Proof.
  intros f HL. rewrite Rsum_fsum, zipw_length, HL, Nat.min_id, <- HL. apply fsum_ext. intros i Hi. apply zipw_nth; lia.
Qed.

(** The file of [save_s_bar] of a run with segregation on the grid holds at every node with mass the mean size of the
    grains around it, before the step sorted them: the mass-weighted mean over the points near the node.  It lies between
    the smallest and the largest size. *)
Lemma p_C115_sizes : forall uf fill (s s' : state R), proper (pG (sP s)) -> grid_ok (pG (sP s)) (sG s) -> p_seg (sP s) = true ->
  length (gs (pG (sP s))) = ns (pG (sP s)) ->
  all_live (sL s) (fun _ p => in_dom (pG (sP s)) (px p) /\ 0 < pm p /\ fractions (ns (pG (sP s))) (pphi p)) -> time_march uf fill s = Ok s' ->
  let P := pG (sP s) in
  exists D, save_s_bar (sP s') (sG s') = Ok D /\ gridlike P D /\
  forall i j, (i < nx P)%nat -> (j < ny P)%nat -> let w p := pm p * hat P (px p) (j * nx P + i) in let M := psum (sL s) (fun _ p => w p) in
    (0 < M -> cell 0 D i j = psum (sL s) (fun _ p => w p * mean_size P p) / M /\
              forall lo hi, Forall (fun z => lo <= z <= hi) (gs P) -> lo <= cell 0 D i j <= hi).
Proof.
  intros uf fill s s' HP HG HS HL HA E Pg.
  assert (HD : all_live (sL s) (fun _ p => in_dom (pG (sP s)) (px p))) by (intros ph p A B; apply (HA ph p A B)).
  destruct (march_any uf fill s s' HP HG HD E) as (L3 & L4 & L5 & G1 & Gc & R3 & E2 & EC & R4 & EP & EM & EV & ES & LM & LQ & L1 & PM & EI).
  fold Pg in R3, LM, LQ, L1.
  set (P := sP s <| p_loads := uf (sP s) |>) in *.
  assert (HA3 : all_live L3 (fun _ p => located Pg p /\ 0 < pm p /\ fractions (ns Pg) (pphi p))).
  { eapply (Lrel_all_live _ (sL s) L3); [exact R3| |exact HA]. cbv beta. intros ph p ph' p' _ _ _ _ _ [D [b ->]] (_ & X & Y).
    split; [apply locate_located; exact D|]. split; [exact X|exact Y]. }
  destruct (p2g_all_phi P L3 _ HS _ E2) as (L1' & G1' & EL & Em & Ep & Ef & Es).
  pose proof (p_C36_nodal_fractions P L3 (sG s) G1 HP HS HL HA3 E2) as FR.
  destruct (p2g_all_mass P L3 _ G1 (wipe_lens P (sG s)) E2) as (_ & _ & MM).
  assert (PS : forall (c : particle R -> R), (forall p b, c (locate Pg (p <| pb := b |>)) = c p) ->
    psum L3 (fun _ p => c p) = psum (sL s) (fun _ p => c p)).
  { intros c Hc. symmetry. eapply Lrel_psum; [exact R3|]. cbv beta. intros ph p ph' p' _ _ _ _ _ [_ [b ->]]. symmetry. apply Hc. }
  assert (M1 : forall k, nth k (gm G1) 0 = psum (sL s) (fun _ p => pm p * hat Pg (px p) k)).
  { intros k. rewrite MM, wipe_m, Rplus_0_l. unfold mass_at.
    rewrite <- (PS (fun p => pm p * hat Pg (px p) k)) by reflexivity. apply psum_ext. intros ph p A B.
    rewrite (wt_hat P p k HP); [reflexivity|]. apply (HA3 ph p A B). }
  assert (LS : length (g_sbar (sG s')) = (nx Pg * ny Pg)%nat).
  { rewrite ES, Es, map_length. destruct (p2g_loop_spec P L3 _ _ _ (wipe_lens P (sG s)) EL) as (_ & (Lg & _ & L3') & _). destruct (L3' HS) as [L4' _].
    destruct (loop_phi P L3 _ _ _ HS EL) as [[_ ->]|EF].
    - unfold wipe. change (p_seg P) with (p_seg (sP s)). rewrite HS. cbn. rewrite repeat_length. reflexivity.
    - rewrite EF. unfold node_fractions. rewrite zipw_length, Lg, L4'. change (pG P) with Pg. unfold nodes. lia. }
  assert (EPg : pG (sP s') = Pg) by (rewrite EP; reflexivity).
  destruct (reshape_spec Pg _ 0 LS) as (D & ED & GD & CD).
  exists D. split; [unfold save_s_bar; rewrite EPg; exact ED|]. split; [exact GD|]. intros i j Hi Hj w M MP.
  assert (Hk : (j * nx Pg + i < nodes Pg)%nat) by (unfold nodes; nia). set (k := (j * nx Pg + i)%nat) in *.
  destruct (FR k Hk) as [F1 _]. rewrite M1 in F1. destruct (F1 MP) as ((FL & FB & FS) & F2 & F3).
  rewrite (CD i j Hi Hj), ES. fold k. split; [|exact F3].
  rewrite Es, <- Ef. assert (LP : length (g_phi G1) = nodes Pg) by (rewrite Ef, <- (map_length (fun row => Rsum (zipw Rmult (gs Pg) row))); rewrite ES, Es in LS; exact LS).
  rewrite nth_map_lt with (d := []) by (rewrite LP; exact Hk). change (pG P) with Pg in *.
  rewrite zipw_pick by (rewrite FL; exact HL). fold M in F2.
  apply (Rmult_eq_reg_r M); [|lra]. unfold Rdiv. rewrite Rmult_assoc, Rinv_l, Rmult_1_r by lra.
  rewrite Rmult_comm, <- fsum_scal.
  rewrite (fsum_ext _ _ (fun i0 => psum (sL s) (fun _ p => nth i0 (gs Pg) 0 * (w p * nth i0 (pphi p) 0)))).
  2:{ intros m Hm. rewrite psum_scal. rewrite <- (PS (fun p => w p * nth m (pphi p) 0)) by reflexivity. unfold w.
      transitivity (nth m (gs Pg) 0 * (nth m (nth k (g_phi G1) []) 0 * M)); [ring|]. f_equal. rewrite F2. apply psum_ext. intros ph p A B. reflexivity. }
  rewrite psum_swap. apply psum_ext. intros ph p A B. unfold mean_size. rewrite zipw_pick by (destruct (HA ph p A B) as (_ & _ & (X & _)); rewrite X; exact HL).
  rewrite <- fsum_scal. apply fsum_ext. intros m Hm. ring.
Qed.

(** Without segregation the file is zero everywhere, whatever the sizes of the grains. *)
Lemma p_C116_sizes_refuted : forall uf fill (s s' : state R), proper (pG (sP s)) -> grid_ok (pG (sP s)) (sG s) -> p_seg (sP s) = false ->
  all_live (sL s) (fun _ p => in_dom (pG (sP s)) (px p)) -> time_march uf fill s = Ok s' ->
  exists D, save_s_bar (sP s') (sG s') = Ok D /\ Forall (Forall (fun z => z = 0)) D.
Proof.
  intros uf fill s s' HP HG HS HD E.
  destruct (march_any uf fill s s' HP HG HD E) as (L3 & L4 & L5 & G1 & Gc & R3 & E2 & EC & R4 & EP & EM & EV & ES & LM & LQ & L1 & PM & EI).
  set (P := sP s <| p_loads := uf (sP s) |>) in *. set (Pg := pG (sP s)) in *.
  assert (Z : g_sbar (sG s') = repeat 0 (nodes Pg)).
  { rewrite ES. change (p2g_all P L3 (wipe P (sG s))) with ('(_, G) <- p2g_loop P L3 (wipe P (sG s)) ;;
      let G := if p_seg P then
        let phi := map (map nan0) (g_phi G) in
        G <| g_phi := phi |> <| g_sbar := map (fun row => lsum (zipw nmul (gs (pG P)) row)) phi |> <| g_pk := zipw ndiv (g_pkm G) (gm G) |>
      else G in
      let q := mask_y (bh G) (mask_x (bv G) (gq G)) in
      let q := if roughness (pB P) then mask_y (bv G) (mask_x (bh G) q) else q in
      Ok (G <| gq := q |>)) in E2.
    destruct (p2g_loop P L3 (wipe P (sG s))) as [[L9 G9]|] eqn:EL; [|discriminate]. cbn [bind] in E2.
    change (p_seg P) with (p_seg (sP s)) in E2. rewrite HS in E2. injection E2 as <-. cbn [g_sbar set].
    destruct (p2g_loop_spec P L3 _ _ _ (wipe_lens P (sG s)) EL) as (FF & _). unfold frame_loop in FF. rewrite FF. cbn.
    unfold wipe. change (p_seg P) with (p_seg (sP s)). rewrite HS. reflexivity. }
  unfold save_s_bar. replace (pG (sP s')) with Pg by (rewrite EP; reflexivity). rewrite Z. unfold reshape. rewrite repeat_length. unfold nodes. rewrite Nat.mul_comm, Nat.eqb_refl.
  eexists. split; [reflexivity|]. apply Forall_forall. intros r Hr. apply in_map_iff in Hr as (j & <- & _). apply Forall_forall. intros z Hz.
  apply (repeat_spec (ny Pg * nx Pg)). rewrite <- (firstn_skipn (j * nx Pg) (repeat 0 _)). apply in_or_app. right.
  rewrite <- (firstn_skipn (nx Pg) (skipn _ _)). apply in_or_app. left. exact Hz.
Qed.

(** The number of points of the phases before phase [a]. *)
Definition before (L : list (phase R)) (a : nat) : nat := list_sum (map (fun ph => ph_n ph) (firstn a L)).

(** The file of [save_phi_MP] has a row for every point: its position, then its fractions.  Row [i] of phase [a] comes
    after the rows of the earlier phases. *)
Lemma p_C115_rows : forall L : list (phase R), (forall ph, In ph L -> (ph_n ph <= length (ph_pts ph))%nat) ->
  exists D, save_phi_MP L = Ok D /\ length D = before L (length L) /\
  forall a ph i p, nth_error L a = Some ph -> (i < ph_n ph)%nat -> nth_error (ph_pts ph) i = Some p ->
    nth_error D (before L a + i) = Some ([vx (px p); vy (px p)] ++ pphi p).
Proof.
  induction L as [|ph0 L IH]; intros HW.
  - exists []. split; [reflexivity|]. split; [reflexivity|]. intros [|a] ph i p A; discriminate.
  - destruct IH as (D & ED & LD & CD); [intros ph A; apply HW; right; exact A|]. specialize (HW ph0 (or_introl eq_refl)).
    unfold save_phi_MP in *. cbn [mapM]. apply Nat.leb_le in HW as HB. rewrite HB. cbn [bind].
    destruct (mapM _ L) as [rows|] eqn:EM; [|discriminate]. cbn [bind] in *. injection ED as <-.
    eexists. split; [reflexivity|]. cbn [concat]. assert (LF : length (map (fun p => vx (px p) :: vy (px p) :: pphi p) (firstn (ph_n ph0) (ph_pts ph0))) = ph_n ph0) by (rewrite map_length, firstn_length; lia).
    split.
    + rewrite app_length, LF, LD. reflexivity.
    + intros [|a] ph i p A Hi B.
      * cbn in A. injection A as <-. unfold before. cbn [firstn map list_sum fold_right plus]. rewrite nth_error_app1 by lia.
        rewrite nth_error_map. assert (X : nth_error (firstn (ph_n ph0) (ph_pts ph0)) i = Some p).
        { rewrite <- (firstn_skipn (ph_n ph0) (ph_pts ph0)) in B. rewrite nth_error_app1 in B; [exact B|]. rewrite firstn_length. lia. }
        rewrite X. reflexivity.
      * cbn in A. specialize (CD a ph i p A Hi B). replace (before (ph0 :: L) (S a) + i)%nat with (ph_n ph0 + (before L a + i))%nat by (unfold before; cbn [firstn map list_sum fold_right]; unfold list_sum; lia).
        rewrite nth_error_app2 by lia. rewrite LF, Nat.add_comm, Nat.add_sub. exact CD.
Qed.

(** Two points of two sizes each in a box, after a step with segregation. *)
Definition save_case (G : grid R) := start (ex_params ex_box <| p_seg := true |> <| p_c := Some 1 |> <| p_l := Some 1 |>) G Elastic.
Lemma save_ready uf fill : exists G s', grid_init (@ex_gridp R _) ex_box = Ok G /\ grid_ok (@ex_gridp R _) G /\ 
  all_live (sL (save_case G)) (fun _ p => in_dom (@ex_gridp R _) (px p)) /\ time_march uf fill (save_case G) = Ok s'.
Proof.
  destruct (grid_init_ok ex_gridp ex_box ex_proper) as (G & EG & OK). exists G.
  assert (D : all_live (sL (save_case G)) (fun _ p => in_dom (@ex_gridp R _) (px p))).
  { intros ph p [<-|[]] HI. cbn in HI. repeat (destruct HI as [<-|HI]; [repeat split; cbn; unR; lra|]). destruct HI. }
  assert (HR : ready_sift (save_case G)).
  { clear D. set (s := save_case G). destruct (ex_ready ex_box G EG OK eq_refl eq_refl eq_refl Elastic (or_introl eq_refl)) as [? ? ? ? (S1 & X1 & X2)]. constructor; try assumption.
    { exists S1. split; [exact X1|]. intros ph p A _. left. exact (X2 ph A). }
    intros _. split; [discriminate|]. split; [discriminate|]. split; [discriminate|]. split; [discriminate|].
    split; [intros S0 X; injection X as <-; discriminate|]. split; [cbn; lia|].
    intros ph p [<-|[]] HI. cbn in HI. repeat (destruct HI as [<-|HI]; [reflexivity|]). destruct HI. }
  destruct (p_C58_step_sift uf fill _ HR) as [s' E]. exists s'. repeat (split; [assumption|]). exact E.
Qed.
Example x_C115_density : forall uf fill, exists (s s' : state R) G0, proper (pG (sP s)) /\ 0 < thickness (pG (sP s)) /\ grid_ok (pG (sP s)) (sG s) /\
  grid_init (pG (sP s)) (pB (sP s)) = Ok G0 /\ gV (sG s) = gV G0 /\
  all_live (sL s) (fun _ p => in_dom (pG (sP s)) (px p)) /\ time_march uf fill s = Ok s' /\ (length (concat (map live (sL s))) = 2)%nat.
Proof.
  intros uf fill. destruct (save_ready uf fill) as (G & s' & EG & OK & D & E). exists (save_case G), s', G.
  split; [exact ex_proper|]. split; [cbn; unR; lra|]. split; [exact OK|]. split; [exact EG|]. split; [reflexivity|]. split; [exact D|]. split; [exact E|reflexivity].
Qed.
Example x_C115_mass : forall uf fill, exists (s s' : state R) G0 D, proper (pG (sP s)) /\ 0 < thickness (pG (sP s)) /\ grid_ok (pG (sP s)) (sG s) /\
  grid_init (pG (sP s)) (pB (sP s)) = Ok G0 /\ gV (sG s) = gV G0 /\
  all_live (sL s) (fun _ p => in_dom (pG (sP s)) (px p)) /\ time_march uf fill s = Ok s' /\ save_density (sP s') (sG s') = Ok D /\
  psum (sL s) (fun _ p => pm p) = 4.
Proof.
  intros uf fill. destruct (save_ready uf fill) as (G & s' & EG & OK & D & E).
  destruct (p_C115_density uf fill (save_case G) s' G ex_proper ltac:(cbn; unR; lra) OK EG eq_refl D E) as (T & ET & _).
  exists (save_case G), s', G, T.
  split; [exact ex_proper|]. split; [cbn; unR; lra|]. split; [exact OK|]. split; [exact EG|]. split; [reflexivity|]. split; [exact D|]. split; [exact E|].
  split; [exact ET|]. cbn. unR. lra.
Qed.
Example x_C115_velocity : forall uf fill, exists (s s' : state R), proper (pG (sP s)) /\ grid_ok (pG (sP s)) (sG s) /\ tight (sP s) /\
  (forall ph, In ph (sL s) -> s_law (ph_sol ph) <> Rigid) /\
  all_live (sL s) (fun _ p => in_dom (pG (sP s)) (px p)) /\ time_march uf fill s = Ok s' /\ p_dt (sP s) <> 0 /\ (length (concat (map live (sL s))) = 2)%nat.
Proof.
  intros uf fill. destruct (save_ready uf fill) as (G & s' & EG & OK & D & E). exists (save_case G), s'.
  split; [exact ex_proper|]. split; [exact OK|]. split; [repeat split; reflexivity|]. split; [intros ph [<-|[]]; discriminate|].
  split; [exact D|]. split; [exact E|]. split; [cbn; unR; lra|reflexivity].
Qed.
Example x_C115_sizes : forall uf fill, exists (s s' : state R), proper (pG (sP s)) /\ grid_ok (pG (sP s)) (sG s) /\ p_seg (sP s) = true /\
  length (gs (pG (sP s))) = ns (pG (sP s)) /\
  all_live (sL s) (fun _ p => in_dom (pG (sP s)) (px p) /\ 0 < pm p /\ fractions (ns (pG (sP s))) (pphi p)) /\ time_march uf fill s = Ok s' /\
  0 < psum (sL s) (fun _ p => pm p * hat (pG (sP s)) (px p) 0).
Proof.
  intros uf fill. destruct (save_ready uf fill) as (G & s' & EG & OK & D & E). exists (save_case G), s'.
  split; [exact ex_proper|]. split; [exact OK|]. split; [reflexivity|]. split; [reflexivity|].
  split.
  { intros ph p A B. split; [exact (D ph p A B)|]. destruct A as [<-|[]]. cbn in B. unfold fractions.
    repeat (destruct B as [<-|B]; [cbn; unR; (split; [lra|]); (split; [reflexivity|]); split; [repeat constructor; lra|unfold Rsum; cbn; lra]|]). destruct B. }
  split; [exact E|]. unfold psum, live. cbn [save_case start sL ex_L map ex_phase ph_n ph_pts firstn Rsum fold_right].
  pose proof (hat_nonneg (@ex_gridp R _) (px ex_p2) 0) as H2.
  assert (H1 : 0 < hat (@ex_gridp R _) (px ex_p1) 0).
  { unfold hat, node_x, node_y, cell_w, cell_h, col, row, tent. cbn. unfold nhalf, lit. cbn. unfold Rabs, Rmax. repeat destruct (Rcase_abs _); repeat destruct (Rle_dec _ _); lra. }
  change (pm ex_p1) with 2. change (pm ex_p2) with 2. change (pG (sP (save_case G))) with (@ex_gridp R _). unfold Rsum. cbn [fold_right]. lra.
Qed.
Example x_C116_sizes_refuted : forall uf fill, exists (s s' : state R), proper (pG (sP s)) /\ grid_ok (pG (sP s)) (sG s) /\ p_seg (sP s) = false /\ all_live (sL s) (fun _ p => in_dom (pG (sP s)) (px p) /\ mean_size (pG (sP s)) p = 3 / 2) /\ time_march uf fill s = Ok s' /\ (length (concat (map live (sL s))) = 2)%nat.
Proof.
  intros uf fill. destruct (grid_init_ok ex_gridp ex_box ex_proper) as (G & EG & OK).
  pose proof (ex_ready ex_box G EG OK eq_refl eq_refl eq_refl Elastic (or_introl eq_refl)) as HR.
  destruct (p_C58_step_total uf fill _ HR) as [s' E].
  exists (start (ex_params ex_box) G Elastic), s'. split; [exact ex_proper|]. split; [exact OK|]. split; [reflexivity|].
  split; [|split; [exact E|reflexivity]].
  intros ph p [<-|[]] HI. cbn in HI. repeat (destruct HI as [<-|HI]; [split; [repeat split; cbn; unR; lra|unfold mean_size, Rsum; cbn; unR; lra]|]). destruct HI.
Qed.
Example x_C115_rows : forall ph, In ph (ex_L Elastic ++ ex_L VonMises) -> (ph_n ph <= length (@ph_pts R ph))%nat /\ (ph_n ph = 2)%nat.
Proof. intros ph [<-|[<-|[]]]; split; try reflexivity; cbn; lia. Qed.
