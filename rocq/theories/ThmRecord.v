(** * The energy table has a row for every step: C123. *)
From Coq Require Import ZArith Reals List Bool Arith Lra Lia.
From RecordUpdate Require Import RecordUpdate.
From Verif Require Import State NumR Spec LibList LibR ModelGrid ModelConstit ModelParticle ModelMPList ModelIntegr
  ModelMain ModelRecord ProofsGrid ProofsMap ProofsP2G ProofsInOut Concrete ThmMapping ThmInOut ThmLoop ThmRun ThmBalance ThmBalance ThmStep ThmCasesStep.
Import ListNotations.
Local Existing Instance Num_R.
Local Open Scope R_scope.

(** Rows written in order from [s] on. *)
Lemma record_rows (row : Z -> R -> list R) (saved : nat -> bool) dt : forall n s done rest, length done = s -> length rest = n ->
  record row (done ++ rest) (flat_map (fun k => hooks (Z.of_nat k) (INR k * dt) (saved k)) (seq s n)) =
  Ok (done ++ map (fun k => row (Z.of_nat k) (INR k * dt)) (seq s n)).
Proof.
  induction n as [|n IH]; intros s done rest Hd Hr.
  - destruct rest; [|discriminate]. reflexivity.
  - destruct rest as [|r rest]; [discriminate|]. cbn [seq flat_map map]. unfold hooks at 1. cbn [app]. unfold record. cbn [foldM].
    assert (U : py_upd (done ++ r :: rest) (Z.of_nat s) (fun _ => row (Z.of_nat s) (INR s * dt)) = Ok (done ++ row (Z.of_nat s) (INR s * dt) :: rest)).
    { unfold py_upd, py_idx. rewrite app_length. cbn [length]. replace ((0 <=? Z.of_nat s) && (Z.of_nat s <? Z.of_nat (length done + S (length rest))))%Z%bool with true
        by (symmetry; apply andb_true_intro; split; [apply Z.leb_le; lia|apply Z.ltb_lt; lia]).
      cbn [bind]. rewrite Nat2Z.id. f_equal. generalize (row (Z.of_nat s) (INR s * dt)). intros z. rewrite <- Hd. clear. induction done as [|a d IH]; [reflexivity|]. cbn [app upd length]. f_equal. exact IH. }
    rewrite U. cbn [bind].
    assert (T : forall tbl l, foldM (fun tbl e => match e with EBefore n t => py_upd tbl n (fun _ => row n t) | _ => Ok tbl end) tbl
      (((if saved s then [ESave (Z.of_nat s) (INR s * dt)] else []) ++ [EAfter (Z.of_nat s) (INR s * dt)]) ++ l) = record row tbl l).
    { intros tbl l. destruct (saved s); reflexivity. }
    rewrite T. specialize (IH (S s) (done ++ [row (Z.of_nat s) (INR s * dt)]) rest).
    rewrite <- !app_assoc in IH. cbn [app] in IH. apply IH; [rewrite app_length; cbn; lia|cbn in Hr; lia].
Qed.

(** In exact arithmetic: a run from time zero with a fixed time step fills the table.  Every row is written exactly once, in
    the order of the steps, with the time of its step, and the table has no row more. *)
Lemma p_C123_rows : forall uf fill fuel (s s' : state R) tr tbl row, main_loop uf fill fuel s = Some (Ok (s', tr)) ->
  p_dynamic (sP s) = false -> 0 < p_dt (sP s) -> p_t (sP s) = 0 -> 0 <= p_tf (sP s) -> p_tstep (sP s) = 0%Z -> energy_table (sP s) = Ok tbl ->
  exists n, length tbl = n /\ record row tbl tr = Ok (map (fun k => row (Z.of_nat k) (INR k * p_dt (sP s))) (seq 0 n)) /\
  (forall k, (k < n)%nat -> INR k * p_dt (sP s) <= p_tf (sP s)) /\ p_tf (sP s) < INR n * p_dt (sP s).
Proof.
  intros uf fill fuel s s' tr tbl row E HD Hdt H0 Hf HS HT.
  destruct (p_C42_main_loop uf fill fuel s s' tr E HD Hdt) as (n & st & saved & EN & _ & _ & B1 & B2 & _ & _ & _ & ET). rewrite H0, HS in *.
  destruct (Rle_dec 0 (p_tf (sP s))) as [_|X]; [|contradiction].
  assert (NN : 0 <= p_tf (sP s) / p_dt (sP s)) by (apply Rmult_le_pos; [exact Hf|left; apply Rinv_0_lt_compat, Hdt]).
  assert (LT : length tbl = n).
  { unfold energy_table, nt in HT. unR. cbn [nint Num_R bind] in HT. rewrite Rtrunc_nonneg in HT by exact NN.
    rewrite Rminus_0_r in EN. set (f := Rfloor (p_tf (sP s) / p_dt (sP s))) in *.
    assert (F0 : (0 <= f)%Z). { apply Z.lt_succ_r, lt_IZR. rewrite succ_IZR. pose proof (Rfloor_bounds (p_tf (sP s) / p_dt (sP s))) as [_ F]. fold f in F. lra. }
    replace (f + 1 <? 0)%Z with false in HT by (symmetry; apply Z.ltb_ge; lia). injection HT as <-. rewrite repeat_length, EN. lia. }
  exists n. split; [exact LT|]. split.
  - rewrite ET. unfold record. cbn [foldM bind]. 
    assert (C : forall tbl l e, match e with EFinal => True | _ => False end -> record row tbl (l ++ [e]) = record row tbl l).
    { clear. intros tbl l e He. unfold record. revert tbl. induction l as [|a l IH]; intros tbl; cbn [app foldM].
      - destruct e; try contradiction. reflexivity.
      - destruct a; cbn [bind]; try apply IH. destruct (py_upd _ _ _); [cbn [bind]; apply IH|reflexivity]. }
    change (record row tbl (flat_map (fun k => hooks (0 + Z.of_nat k) (0 + INR k * p_dt (sP s)) (saved k)) (seq 0 n) ++ [EFinal]) =
      Ok (map (fun k => row (Z.of_nat k) (INR k * p_dt (sP s))) (seq 0 n))).
    rewrite C by exact I. etransitivity; [|exact (record_rows row saved (p_dt (sP s)) n 0 [] tbl eq_refl LT)]. cbn [app]. f_equal.
    apply flat_map_ext. intros k. rewrite Rplus_0_l. reflexivity.
  - split; [intros k Hk; specialize (B1 k Hk); lra|lra].
Qed.

(** What [draw_energy] draws for the rows of [measure_elastic_energy]: the three energies at their time and their sum. *)
Lemma p_C123_drawn : forall l : list (R * R * R * R), draw_energy (map (fun r => let '(t, K, U, W) := r in [t; K; U; W]) l) =
  map (fun r => let '(t, K, U, W) := r in (t, [K; U; W; K + U + W])) l.
Proof.
  induction l as [|[[[t K] U] W] l IH]; [reflexivity|]. unfold draw_energy in *. cbn [map]. rewrite IH. f_equal. cbn. unR. repeat f_equal. ring.
Qed.

(** Two points in a box, steps of 1/10 until time one. *)
Example x_C123_rows : forall fill, exists (s s' : state R) tr tbl fuel, main_loop no_loads fill fuel s = Some (Ok (s', tr)) /\
  p_dynamic (sP s) = false /\ 0 < p_dt (sP s) /\ p_t (sP s) = 0 /\ 0 <= p_tf (sP s) /\ p_tstep (sP s) = 0%Z /\ energy_table (sP s) = Ok tbl /\
  length (concat (map live (sL s))) = 2%nat.
Proof.
  intros fill. destruct (still_box fill) as (G & _ & _ & A & B & C). set (s := dr_state ex_box G v0) in *.
  assert (D : 0 < p_dt (sP s)) by (cbn; unfold lit; unR; lra).
  destruct (p_C42_completes no_loads fill s A B C D) as (fuel & s' & tr & E).
  assert (T : exists tbl, energy_table (sP s) = Ok tbl).
  { unfold energy_table, nt. cbn [nint Num_R bind]. rewrite Rtrunc_nonneg by (cbn; unfold lit; unR; lra).
    match goal with |- context [Rfloor ?x] => pose proof (Rfloor_bounds x) as [_ F]; assert (X : 0 <= x) by (cbn; unfold lit; unR; lra); set (f := Rfloor x) in * end.
    assert (F0 : (0 <= f)%Z) by (apply Z.lt_succ_r, lt_IZR; rewrite succ_IZR; lra).
    replace (f + 1 <? 0)%Z with false by (symmetry; apply Z.ltb_ge; lia). eauto. }
  destruct T as [tbl T]. exists s, s', tr, tbl. eexists. split; [exact E|]. split; [reflexivity|]. split; [exact D|]. split; [reflexivity|].
  split; [cbn; unR; lra|]. split; [reflexivity|]. split; [exact T|reflexivity].
Qed.
