(** * The main loop, output schedule and time steps: C42-C45, C56. *)
From Coq Require Import ZArith Reals List Bool Arith Lra Lia.
From Verif Require Import State NumR Spec LibList LibR ModelGrid ModelConstit ModelParticle ModelMPList ModelIntegr
  ModelMain NumX NumF ProofsGrid ProofsMap ProofsP2G ProofsInOut Concrete ThmMapping ThmInOut.
Import ListNotations.
Local Open Scope R_scope.

(** ** C42 *)
Lemma time_march_params {T} {N : Num T} uf fill (s : state T) s' : time_march uf fill s = Ok s' ->
  sP s' = sP s <| p_loads := uf (sP s) |>.
Proof. intros E. unfold time_march in E. cbv zeta in E. pbinds E. injection E as <-. reflexivity. Qed.

(** Number of passes of the loop [while t <= t_f: ...; t += dt]. *)
Definition passes (t tf dt : R) : nat :=
  if Rle_dec t tf then Datatypes.S (Z.to_nat (Rfloor ((tf - t) / dt))) else 0%nat.

Lemma passes_done t tf dt : tf < t -> passes t tf dt = 0%nat.
Proof. intros. unfold passes. destruct (Rle_dec t tf); [lra|reflexivity]. Qed.
Lemma passes_step t tf dt : 0 < dt -> t <= tf -> passes t tf dt = Datatypes.S (passes (t + dt) tf dt).
Proof.
  intros Hd Ht. unfold passes. destruct (Rle_dec t tf); [|lra]. f_equal.
  pose proof (Rfloor_bounds ((tf - t) / dt)) as [F1 F2]. set (f := Rfloor ((tf - t) / dt)) in *.
  assert (A : tf - t = (tf - t) / dt * dt) by (field; lra).
  destruct (Rle_dec (t + dt) tf) as [H|H].
  - assert (G : Rfloor ((tf - (t + dt)) / dt) = (f - 1)%Z).
    { apply Rfloor_spec. replace ((tf - (t + dt)) / dt) with ((tf - t) / dt - 1) by (field; lra).
      rewrite minus_IZR. lra. }
    rewrite G.
    assert (1 <= f)%Z; [|lia].
    { apply (Zlt_le_succ 0). apply lt_IZR.
      assert (1 <= (tf - t) / dt); [|lra].
      apply Rmult_le_reg_r with dt; [auto|]. lra. }
  - assert (G : f = 0%Z).
    { unfold f. apply Rfloor_spec. split.
      - apply Rmult_le_reg_r with dt; [auto|]. lra.
      - apply Rmult_lt_reg_r with dt; [auto|]. lra. }
    rewrite G. reflexivity.
Qed.

(** The hooks called by pass [k] at time [t]. *)
Definition saves (t dt savetime : R) : Prop :=
  t - savetime * IZR (Rfloor (t / savetime)) < dt /\ t <> dt.
Definition hooks (n : Z) (t : R) (saved : bool) : list (event R) :=
  EBefore n t :: (if saved then [ESave n t] else []) ++ [EAfter n t].

Section Loop.
  Context (uf : params R -> loads R) (fill : list bool -> list R -> list R).
  Let tm := time_march uf fill.

  (** One pass: a step, then the hooks, then the clock. *)
  Lemma pass_ok s tr s' tr' : pass uf fill s tr = Ok (s', tr') -> p_dynamic (sP s) = false ->
    let P := sP s in
    exists s1 b, tm s = Ok s1 /\ sP s1 = P <| p_loads := uf P |> /\
      s' = s1 <| sP := sP s1 <| p_t := p_t P + p_dt P |> <| p_tstep := (p_tstep P + 1)%Z |> |> /\
      (b = true <-> saves (p_t P) (p_dt P) (p_savetime P)) /\
      tr' = tr ++ hooks (p_tstep P) (p_t P) b.
  Proof.
    intros E HD P. unfold pass in E. apply bind_ok in E. destruct E as (s1 & E1 & E).
    pose proof (time_march_params _ _ _ _ E1) as EP. rewrite EP in E. fold P in E, EP.
    change (p_tf (P <| p_loads := uf P |>)) with (p_tf P) in E. cbv zeta in E.
    destruct (p_tf P =? n0)%num; [discriminate|].
    apply bind_ok in E. destruct E as (b & ES & E).
    match type of E with context [p_dynamic ?Q] => change (p_dynamic Q) with (p_dynamic P) in E end.
    fold P in HD. rewrite HD in E. cbn [bind] in E.
    injection E as <- <-. exists s1, b. split; [exact E1|]. split; [exact EP|]. split; [|split].
    - rewrite EP. reflexivity.
    - unfold save_due in ES. apply bind_ok in ES. destruct ES as (m & EM & ES). injection ES as <-.
      change (Rmod (p_t P) (p_savetime P) = Ok m) in EM. unfold Rmod in EM.
      destruct (Req_EM_T (p_savetime P) 0); [discriminate|]. injection EM as <-.
      unfold saves. rewrite andb_true_iff, negb_true_iff.
      split; intros [A B]; split.
      + apply Rltb_true in A. exact A.
      + apply Reqb_false in B. exact B.
      + apply Rltb_true. exact A.
      + apply Reqb_false. exact B.
    - unfold hooks. change (p_tstep (P <| p_loads := uf P |>)) with (p_tstep P).
      change (p_t (P <| p_loads := uf P |>)) with (p_t P). destruct b; cbn [app]; rewrite <- ?app_assoc; reflexivity.
  Qed.

  Lemma march_ok fuel : forall s tr s' tr', march uf fill fuel s tr = Some (Ok (s', tr')) ->
    p_dynamic (sP s) = false -> 0 < p_dt (sP s) ->
    let t := p_t (sP s) in let dt := p_dt (sP s) in let n := passes t (p_tf (sP s)) dt in
    exists (st : nat -> state R) (saved : nat -> bool),
      st 0%nat = s /\ s' = st n /\
      (forall k, (k < n)%nat -> exists s1, tm (st k) = Ok s1 /\
         st (Datatypes.S k) = s1 <| sP := sP s1 <| p_t := p_t (sP (st k)) + dt |> <| p_tstep := (p_tstep (sP (st k)) + 1)%Z |> |>) /\
      (forall k, (k <= n)%nat -> p_t (sP (st k)) = t + INR k * dt /\ p_tstep (sP (st k)) = (p_tstep (sP s) + Z.of_nat k)%Z) /\
      (forall k, (k < n)%nat -> saved k = true <-> saves (t + INR k * dt) dt (p_savetime (sP s))) /\
      tr' = tr ++ flat_map (fun k => hooks (p_tstep (sP s) + Z.of_nat k) (t + INR k * dt) (saved k)) (seq 0 n).
  Proof.
    induction fuel as [|fuel IH]; intros s tr s' tr' E HD Hdt t dt n; cbn [march] in E.
    - destruct (p_t (sP s) <=? p_tf (sP s))%num eqn:L; [discriminate|]. apply Rleb_false in L.
      injection E as <- <-. unfold n, t. rewrite (passes_done _ _ _ L). exists (fun _ => s), (fun _ => false).
      split; [reflexivity|]. split; [reflexivity|]. split; [intros k; lia|]. split; [|split; [intros k; lia|cbn; rewrite app_nil_r; reflexivity]].
      intros k Hk. replace k with 0%nat by lia. cbn. split; [ring|lia].
    - destruct (p_t (sP s) <=? p_tf (sP s))%num eqn:L.
      2:{ apply Rleb_false in L.
        injection E as <- <-. unfold n, t. rewrite (passes_done _ _ _ L). exists (fun _ => s), (fun _ => false).
        split; [reflexivity|]. split; [reflexivity|]. split; [intros k; lia|]. split; [|split; [intros k; lia|cbn; rewrite app_nil_r; reflexivity]].
        intros k Hk. replace k with 0%nat by lia. cbn. split; [ring|lia]. }
      apply Rleb_true in L. destruct (pass uf fill s tr) as [[s2 tr2]|] eqn:EP; [|discriminate].
      destruct (pass_ok _ _ _ _ EP HD) as (s1 & b & E1 & EP1 & E2 & EB & ET).
      assert (Q : sP s2 = sP s <| p_loads := uf (sP s) |> <| p_t := t + dt |> <| p_tstep := (p_tstep (sP s) + 1)%Z |>).
      { rewrite E2. cbn [sP set]. rewrite EP1. reflexivity. }
      destruct (IH s2 tr2 s' tr' E) as (st & saved & S0 & S1 & S2 & S3 & S4 & S5).
      { rewrite Q. exact HD. } { rewrite Q. exact Hdt. }
      rewrite Q in S1, S2, S3, S4, S5.
      change (p_t (sP s <| p_loads := uf (sP s) |> <| p_t := t + dt |> <| p_tstep := (p_tstep (sP s) + 1)%Z |>)) with (t + dt) in *.
      change (p_dt (sP s <| p_loads := uf (sP s) |> <| p_t := t + dt |> <| p_tstep := (p_tstep (sP s) + 1)%Z |>)) with dt in *.
      change (p_tf (sP s <| p_loads := uf (sP s) |> <| p_t := t + dt |> <| p_tstep := (p_tstep (sP s) + 1)%Z |>)) with (p_tf (sP s)) in *.
      change (p_savetime (sP s <| p_loads := uf (sP s) |> <| p_t := t + dt |> <| p_tstep := (p_tstep (sP s) + 1)%Z |>)) with (p_savetime (sP s)) in *.
      change (p_tstep (sP s <| p_loads := uf (sP s) |> <| p_t := t + dt |> <| p_tstep := (p_tstep (sP s) + 1)%Z |>)) with (p_tstep (sP s) + 1)%Z in *.
      assert (EN : n = Datatypes.S (passes (t + dt) (p_tf (sP s)) dt)) by (apply passes_step; assumption).
      set (m := passes (t + dt) (p_tf (sP s)) dt) in *.
      exists (fun k => match k with O => s | Datatypes.S k => st k end), (fun k => match k with O => b | Datatypes.S k => saved k end).
      split; [reflexivity|]. split; [rewrite EN; exact S1|]. split; [|split; [|split]].
      + intros [|k] Hk.
        * exists s1. split; [exact E1|]. rewrite S0. exact E2.
        * apply S2. lia.
      + intros [|k] Hk.
        * cbn [INR]. split; [unfold t; ring|cbn; lia].
        * destruct (S3 k) as [A B]; [lia|]. split; [rewrite A, S_INR; ring|rewrite B; lia].
      + intros [|k] Hk.
        * cbn [INR]. replace (t + 0 * dt) with t by ring. exact EB.
        * rewrite (S4 k) by lia. rewrite S_INR. replace (t + dt + INR k * dt) with (t + (INR k + 1) * dt) by ring. reflexivity.
      + rewrite EN, S5, ET, <- app_assoc. f_equal. cbn [seq flat_map]. f_equal.
        * cbn [INR Z.of_nat]. f_equal; [lia|unfold t; ring].
        * rewrite <- seq_shift, flat_map_concat_map, flat_map_concat_map, map_map. f_equal. apply map_ext.
          intros k. rewrite S_INR. f_equal; [lia|ring].
  Qed.
End Loop.

(** The loop runs the steps in order at the times [t, t+dt, ...], as long as
    [t <= t_f], each followed by its hooks; the initial and final hooks are
    called once. *)
Lemma p_C42_main_loop : forall uf fill fuel s s' tr, main_loop uf fill fuel s = Some (Ok (s', tr)) ->
  p_dynamic (sP s) = false -> 0 < p_dt (sP s) ->
  let t := p_t (sP s) in let tf := p_tf (sP s) in let dt := p_dt (sP s) in
  exists (n : nat) (st : nat -> state R) (saved : nat -> bool),
    n = (if Rle_dec t tf then Datatypes.S (Z.to_nat (Rfloor ((tf - t) / dt))) else 0%nat) /\
    st 0%nat = s /\ s' = st n /\
    (forall k, (k < n)%nat -> t + INR k * dt <= tf) /\ tf < t + INR n * dt /\
    (forall k, (k < n)%nat -> exists s1, time_march uf fill (st k) = Ok s1 /\
       st (Datatypes.S k) = s1 <| sP := sP s1 <| p_t := p_t (sP (st k)) + dt |> <| p_tstep := (p_tstep (sP (st k)) + 1)%Z |> |>) /\
    (forall k, (k <= n)%nat -> p_t (sP (st k)) = t + INR k * dt /\ p_tstep (sP (st k)) = (p_tstep (sP s) + Z.of_nat k)%Z) /\
    (forall k, (k < n)%nat -> saved k = true <-> saves (t + INR k * dt) dt (p_savetime (sP s))) /\
    tr = EInitial :: flat_map (fun k => hooks (p_tstep (sP s) + Z.of_nat k) (t + INR k * dt) (saved k)) (seq 0 n) ++ [EFinal].
Proof.
  intros uf fill fuel s s' tr E HD Hdt t tf dt. unfold main_loop in E.
  destruct (march uf fill fuel s [EInitial]) as [[[s2 tr2]|]|] eqn:EM; try discriminate. injection E as <- <-.
  destruct (march_ok _ _ _ _ _ _ _ EM HD Hdt) as (st & saved & S0 & S1 & S2 & S3 & S4 & S5).
  exists (passes t tf dt), st, saved. split; [reflexivity|]. split; [exact S0|]. split; [exact S1|].
  assert (B : (forall k, (k < passes t tf dt)%nat -> t + INR k * dt <= tf) /\ tf < t + INR (passes t tf dt) * dt).
  { unfold passes. fold dt in Hdt. destruct (Rle_dec t tf) as [L|L].
    2:{ split; [intros k; lia|]. cbn. lra. }
    pose proof (Rfloor_bounds ((tf - t) / dt)) as [F1 F2]. set (f := Rfloor ((tf - t) / dt)) in *.
    assert (A : tf - t = (tf - t) / dt * dt) by (field; lra).
    assert (F0 : (0 <= f)%Z).
    { apply Z.lt_succ_r, lt_IZR. rewrite succ_IZR. apply Rle_lt_trans with ((tf - t) / dt); [|lra].
      apply Rmult_le_pos; [lra|]. left. apply Rinv_0_lt_compat. auto. }
    assert (N : INR (Z.to_nat f) = IZR f) by (rewrite INR_IZR_INZ, Z2Nat.id by auto; reflexivity).
    split.
    - intros k Hk. assert (INR k <= IZR f) by (rewrite <- N; apply le_INR; lia).
      assert (INR k * dt <= (tf - t) / dt * dt) by (apply Rmult_le_compat_r; lra). lra.
    - rewrite S_INR, N. assert ((tf - t) / dt * dt < (IZR f + 1) * dt) by (apply Rmult_lt_compat_r; lra). lra. }
  destruct B as [B1 B2]. split; [exact B1|]. split; [exact B2|]. split; [exact S2|]. split; [exact S3|].
  split; [exact S4|]. rewrite S5. reflexivity.
Qed.

(** It ends: given that many passes, the loop is not still running. *)
Lemma p_C42_terminates : forall uf fill fuel s, p_dynamic (sP s) = false -> 0 < p_dt (sP s) ->
  p_tf (sP s) < p_t (sP s) + INR fuel * p_dt (sP s) -> main_loop uf fill fuel s <> None.
Proof.
  intros uf fill fuel s HD Hdt HF.
  assert (C : forall fuel s tr, p_dynamic (sP s) = false -> 0 < p_dt (sP s) ->
    p_tf (sP s) < p_t (sP s) + INR fuel * p_dt (sP s) -> march uf fill fuel s tr <> None).
  { clear. induction fuel as [|fuel IH]; intros s tr HD Hdt HF; cbn [march].
    - cbn in HF. destruct (p_t (sP s) <=? p_tf (sP s))%num eqn:L; [apply Rleb_true in L; lra|discriminate].
    - destruct (p_t (sP s) <=? p_tf (sP s))%num eqn:L; [|discriminate].
      destruct (pass uf fill s tr) as [[s2 tr2]|] eqn:EP; [|discriminate].
      destruct (pass_ok _ _ _ _ _ _ EP HD) as (s1 & b & E1 & EP1 & E2 & _).
      assert (Q : sP s2 = sP s <| p_loads := uf (sP s) |> <| p_t := p_t (sP s) + p_dt (sP s) |> <| p_tstep := (p_tstep (sP s) + 1)%Z |>).
      { rewrite E2. cbn [sP set]. rewrite EP1. reflexivity. }
      apply IH; rewrite Q; [exact HD|exact Hdt|].
      cbn [p_tf p_t p_dt set]. rewrite S_INR in HF.
      change (p_tf (sP s) < p_t (sP s) + p_dt (sP s) + INR fuel * p_dt (sP s)). lra. }
  unfold main_loop. specialize (C fuel s [EInitial] HD Hdt HF).
  destruct (march uf fill fuel s [EInitial]) as [[[s2 tr2]|]|]; congruence.
Qed.

(** ** C43 *)
(** Is it a call of after_every_nth_timestep at a time in [[a, b)]? *)
Definition is_save (a b : R) (e : event R) : bool :=
  match e with ESave _ t => if Rle_dec a t then (if Rlt_dec t b then true else false) else false | _ => false end.

Lemma one_of {A} (g : nat -> list A) x n k0 : (k0 < n)%nat -> g k0 = [x] ->
  (forall k, (k < n)%nat -> k <> k0 -> g k = []) -> flat_map g (seq 0 n) = [x].
Proof.
  intros H0 H1 H2.
  assert (C : forall len s, (s + len <= n)%nat ->
    flat_map g (seq s len) = if (s <=? k0)%nat && (k0 <? s + len)%nat then [x] else []).
  { induction len as [|len IH]; intros s Hs; cbn [seq flat_map].
    - destruct (Nat.leb_spec s k0), (Nat.ltb_spec k0 (s + 0)); try lia; reflexivity.
    - rewrite IH by lia. destruct (Nat.eq_dec s k0) as [->|N].
      + rewrite H1. destruct (Nat.leb_spec (Datatypes.S k0) k0), (Nat.leb_spec k0 k0), (Nat.ltb_spec k0 (k0 + Datatypes.S len)); try lia. reflexivity.
      + rewrite H2 by lia. cbn [app].
        destruct (Nat.leb_spec (Datatypes.S s) k0), (Nat.leb_spec s k0), (Nat.ltb_spec k0 (Datatypes.S s + len)), (Nat.ltb_spec k0 (s + Datatypes.S len)); try lia; reflexivity. }
  rewrite C by lia. destruct (Nat.leb_spec 0 k0), (Nat.ltb_spec k0 (0 + n)); try lia; reflexivity.
Qed.

Lemma filter_flat_map {A B} (p : B -> bool) (f : A -> list B) l : filter p (flat_map f l) = flat_map (fun a => filter p (f a)) l.
Proof. induction l as [|a l IH]; cbn; [reflexivity|]. rewrite filter_app, IH. reflexivity. Qed.

Lemma saves_interval j t dt sv : 0 < dt -> 0 < sv -> INR j * sv <= t < (INR j + 1) * sv ->
  saves t dt sv <-> t < INR j * sv + dt /\ t <> dt.
Proof.
  intros Hd Hs Ht. unfold saves. rewrite (Rfloor_spec (t / sv) (Z.of_nat j)).
  - rewrite <- INR_IZR_INZ. rewrite (Rmult_comm sv). split; intros [A B]; split; auto; lra.
  - rewrite <- INR_IZR_INZ. split.
    + apply Rmult_le_reg_r with sv; [auto|]. replace (t / sv * sv) with t by (field; lra). lra.
    + apply Rmult_lt_reg_r with sv; [auto|]. replace (t / sv * sv) with t by (field; lra). lra.
Qed.

Lemma passes_lt k tf dt : 0 < dt -> INR k * dt <= tf -> (k < passes 0 tf dt)%nat.
Proof.
  intros Hd H. unfold passes. assert (0 <= INR k * dt) by (apply Rmult_le_pos; [apply pos_INR|lra]).
  destruct (Rle_dec 0 tf); [|lra]. apply Nat.lt_succ_r, INR_le.
  replace (tf - 0) with tf by ring. pose proof (Rfloor_bounds (tf / dt)) as [F1 F2].
  assert (Q : INR k <= tf / dt).
  { apply Rmult_le_reg_r with dt; [auto|]. replace (tf / dt * dt) with tf by (field; lra). lra. }
  assert (Z.of_nat k <= Rfloor (tf / dt))%Z.
  { apply Z.lt_succ_r, lt_IZR. rewrite succ_IZR, <- INR_IZR_INZ. lra. }
  rewrite (INR_IZR_INZ (Z.to_nat _)), Z2Nat.id by lia. rewrite INR_IZR_INZ. apply IZR_le. lia.
Qed.

(** In a run from [t=0] with [dt < savetime], after_every_nth_timestep is called
    exactly once in every save interval the run passes through: at its first
    step, at most [dt] after its start. *)
Lemma p_C43_once : forall uf fill fuel s s' tr j, main_loop uf fill fuel s = Some (Ok (s', tr)) ->
  p_dynamic (sP s) = false -> p_t (sP s) = 0 -> p_tstep (sP s) = 0%Z ->
  0 < p_dt (sP s) < p_savetime (sP s) ->
  let sv := p_savetime (sP s) in let dt := p_dt (sP s) in
  (INR j + 1) * sv <= p_tf (sP s) ->
  exists k : nat, filter (is_save (INR j * sv) ((INR j + 1) * sv)) tr = [ESave (Z.of_nat k) (INR k * dt)] /\
    INR j * sv <= INR k * dt < INR j * sv + dt.
Proof.
  intros uf fill fuel s s' tr j E HD H0 HN Hdt sv dt Hj.
  destruct (p_C42_main_loop _ _ _ _ _ _ E HD (proj1 Hdt)) as (n & st & saved & N & _ & _ & _ & _ & _ & _ & HS & HT).
  fold dt sv in Hdt, N, HS, HT. rewrite H0, HN in *.
  assert (Hj0 : 0 <= INR j) by apply pos_INR.
  destruct (first_step (INR j * sv) dt) as (k & Hk); [apply Rmult_le_pos; lra|lra|].
  exists k. split; [|exact Hk]. rewrite HT. cbn [filter is_save]. rewrite filter_app. cbn [filter is_save].
  rewrite app_nil_r, filter_flat_map.
  assert (FH : forall a b i, filter (is_save a b) (hooks (0 + Z.of_nat i) (0 + INR i * dt) (saved i)) =
    if saved i then (if Rle_dec a (INR i * dt) then if Rlt_dec (INR i * dt) b then [ESave (Z.of_nat i) (INR i * dt)] else [] else []) else []).
  { intros a b i. rewrite Z.add_0_l, Rplus_0_l. unfold hooks. destruct (saved i); cbn [filter is_save app]; [|reflexivity].
    destruct (Rle_dec a (INR i * dt)); [|reflexivity]. destruct (Rlt_dec (INR i * dt) b); reflexivity. }
  assert (KD : forall i : nat, INR j * sv <= INR i * dt < INR j * sv + dt -> INR i * dt <> dt).
  { intros i Hi Q. destruct j as [|j].
    - cbn [INR] in Hi. lra.
    - rewrite S_INR in Hi. assert (0 <= INR j * sv) by (apply Rmult_le_pos; [apply pos_INR|lra]). lra. }
  apply one_of with k.
  - rewrite N. apply (passes_lt k (p_tf (sP s)) dt); lra.
  - cbv beta. rewrite FH. assert (K : (k < n)%nat) by (rewrite N; apply (passes_lt k (p_tf (sP s)) dt); lra).
    assert (saved k = true) as ->.
    { apply HS; [exact K|]. rewrite Rplus_0_l. apply (saves_interval j); [lra|lra|lra|]. split; [lra|]. apply KD. exact Hk. }
    destruct (Rle_dec (INR j * sv) (INR k * dt)); [|lra]. destruct (Rlt_dec (INR k * dt) ((INR j + 1) * sv)); [|lra]. reflexivity.
  - intros i Hi Ni. rewrite FH. destruct (saved i) eqn:ES; [|reflexivity].
    destruct (Rle_dec (INR j * sv) (INR i * dt)); [|reflexivity]. destruct (Rlt_dec (INR i * dt) ((INR j + 1) * sv)); [|reflexivity].
    exfalso. apply Ni. apply (HS i Hi) in ES. rewrite Rplus_0_l in ES. apply (saves_interval j) in ES; [|lra|lra|lra].
    apply (same_step (INR j * sv) dt); [lra|lra|exact Hk].
Qed.

(** The condition fires on the very first step, whatever [dt] and [savetime]. *)
Lemma p_C43_first_step_refuted : forall (P : params R) dt sv, 0 < dt -> 0 < sv ->
  save_due (P <| p_t := 0 |> <| p_dt := dt |> <| p_savetime := sv |>) = Ok true.
Proof.
  intros P dt sv Hd Hs. unfold save_due. cbn [p_t p_dt p_savetime set].
  change (bind (Rmod 0 sv) (fun m => Ok (Rltb m dt && negb (Reqb 0 dt))) = Ok true).
  rewrite (Rmod_interval 0 sv 0) by (cbn; lra). cbn [bind]. f_equal. apply andb_true_iff. split.
  - apply Rltb_true. cbn. lra.
  - apply negb_true_iff, Reqb_false. lra.
Qed.

(** With [dt = savetime] the interval [[savetime, 2 savetime)] is never saved:
    its only step has [t = dt], which the condition excludes. *)
Lemma p_C43_equal_refuted : forall (P : params R) dt, 0 < dt -> forall k : nat,
  dt <= INR k * dt < 2 * dt ->
  save_due (P <| p_t := INR k * dt |> <| p_dt := dt |> <| p_savetime := dt |>) = Ok false.
Proof.
  intros P dt Hd k Hk. unfold save_due. cbn [p_t p_dt p_savetime set].
  change (bind (Rmod (INR k * dt) dt) (fun m => Ok (Rltb m dt && negb (Reqb (INR k * dt) dt))) = Ok false).
  rewrite (Rmod_interval _ _ 1) by (cbn; lra). cbn [bind]. f_equal. apply andb_false_iff. right.
  apply negb_false_iff, Reqb_true.
  assert (k = 1%nat) as ->; [|cbn; ring].
  apply (same_step dt dt); cbn; lra.
Qed.

(** ** C44 *)
(** [t] after [k] steps, accumulated in binary64 as MPM.py:90 does. *)
Fixpoint ftime (dt : binary64) (k : nat) : binary64 :=
  match k with O => n0 | Datatypes.S k => (ftime dt k + dt)%num end.

(** [dt = 0.1], [savetime = 0.5]: the steps 5 and 6, at [t = 0.5] and [t = 0.6],
    both lie in the save interval [[0.5, 1.0)] and both save. *)
Lemma p_C44_drift_refuted : exists dt sv : binary64, dt = lit 1 10 /\ sv = lit 1 2 /\
  (dt <? sv)%num = true /\
  exists i k : nat, i <> k /\
    forall P : params binary64, let due n := save_due (P <| p_t := ftime dt n |> <| p_dt := dt |> <| p_savetime := sv |>) in
    due i = Ok true /\ due k = Ok true /\
    (sv <=? ftime dt i)%num = true /\ (ftime dt i <? sv + sv)%num = true /\
    (sv <=? ftime dt k)%num = true /\ (ftime dt k <? sv + sv)%num = true.
Proof.
  exists (lit 1 10), (lit 1 2). split; [reflexivity|]. split; [reflexivity|]. split; [vm_compute; reflexivity|].
  exists 5%nat, 6%nat. split; [lia|]. intros P due. repeat split; vm_compute; reflexivity.
Qed.
(** In exact arithmetic the same run saves once in that interval (see C43). *)
Example x_C44_exact : exists! k : nat, 1/2 <= INR k * (1/10) < 1 /\ saves (INR k * (1/10)) (1/10) (1/2).
Proof.
  assert (D : forall k : nat, 1/2 <= INR k * (1/10) < 1 -> (saves (INR k * (1/10)) (1/10) (1/2) <-> INR k * (1/10) < 6/10)).
  { intros k Hk. rewrite (saves_interval 1) by (cbn; lra). cbn [INR]. split; [intros [A _]; lra|intros A; split; lra]. }
  exists 5%nat. split.
  - assert (H : 1/2 <= INR 5 * (1/10) < 1) by (cbn; lra). split; [exact H|]. apply D; [exact H|cbn; lra].
  - intros k [H S]. apply D in S; [|exact H]. apply (same_step (1/2) (1/10)); cbn; lra.
Qed.

(** ** C45 *)
Lemma fold_max_ub l : forall a, (a <= fold_left Rmax l a) /\ (forall x, In x l -> x <= fold_left Rmax l a) /\
  (In (fold_left Rmax l a) (a :: l)).
Proof.
  induction l as [|b l IH]; intros a; cbn [fold_left].
  - split; [lra|]. split; [intros x []|left; reflexivity].
  - destruct (IH (Rmax a b)) as (A & B & C). pose proof (Rmax_l a b). pose proof (Rmax_r a b).
    split; [lra|]. split.
    + intros x [->|Hx]; [lra|auto].
    + destruct C as [C|C]; [|right; right; exact C]. rewrite <- C. unfold Rmax. destruct (Rle_dec a b); [right; left|left]; reflexivity.
Qed.
Lemma fold_min_lb l : forall a, (fold_left Rmin l a <= a) /\ (forall x, In x l -> fold_left Rmin l a <= x) /\
  (In (fold_left Rmin l a) (a :: l)).
Proof.
  induction l as [|b l IH]; intros a; cbn [fold_left].
  - split; [lra|]. split; [intros x []|left; reflexivity].
  - destruct (IH (Rmin a b)) as (A & B & C). pose proof (Rmin_l a b). pose proof (Rmin_r a b).
    split; [lra|]. split.
    + intros x [->|Hx]; [lra|auto].
    + destruct C as [C|C]; [|right; right; exact C]. rewrite <- C. unfold Rmin. destruct (Rle_dec a b); [left|right; left]; reflexivity.
Qed.
Lemma in_zipw {A B C} (f : A -> B -> C) l l' i d d' : (i < length l)%nat -> length l = length l' ->
  In (f (nth i l d) (nth i l' d')) (zipw f l l').
Proof.
  revert l l'. induction i as [|i IH]; intros [|a l] [|b l'] H E; cbn in *; try lia; [left; reflexivity|].
  right. apply IH; lia.
Qed.
Lemma zipw_in {A B C} (f : A -> B -> C) l : forall l' x, In x (zipw f l l') -> exists a b, In (a, b) (combine l l') /\ x = f a b.
Proof.
  induction l as [|a l IH]; intros [|b l'] x; cbn; try tauto.
  intros [<-|Hx]; [exists a, b; auto|]. destruct (IH _ _ Hx) as (c & d & I & ->). exists c, d. auto.
Qed.

(** If some node moves, the step is positive, within the cell crossing
    condition at every node that carries mass, and within the critical time of
    every phase. *)
Lemma p_C45_dynamic : forall (P : params R) G L dx dy,
  pdx (pG P) = Some dx -> pdy (pG P) = Some dy -> 0 < dx -> 0 < dy -> 0 < p_CFL P ->
  length (gq G) = length (gm G) ->
  (forall ph c, In ph L -> s_crit (ph_sol ph) = Some c -> 0 < c) ->
  (exists i, (i < length (gm G))%nat /\ nth i (gm G) 0 <> 0 /\ (vx (nth i (gq G) v0) <> 0 \/ vy (nth i (gq G) v0) <> 0)) ->
  exists dt, dynamic_dt P G L = Ok dt /\ 0 < dt /\
    (forall i, (i < length (gm G))%nat -> let q := nth i (gq G) v0 in let m := nth i (gm G) 0 in
       dt * Rabs (vx q / m) <= p_CFL P * (1/10 * Rmin dx dy) /\ dt * Rabs (vy q / m) <= p_CFL P * (1/10 * Rmin dx dy)) /\
    (forall ph c, In ph L -> s_crit (ph_sol ph) = Some c -> dt <= p_CFL P * c).
Proof.
  intros P G L dx dy EX EY HX HY HC HL HK (i0 & H0 & HM & HQ). unfold dynamic_dt. rewrite EX, EY. cbn [attr bind].
  set (l := zipw _ _ _ ++ zipw _ _ _).
  assert (IN : forall i, (i < length (gm G))%nat -> In (Rabs (vx (nth i (gq G) v0) / nth i (gm G) 0)) l /\ In (Rabs (vy (nth i (gq G) v0) / nth i (gm G) 0)) l).
  { intros i Hi. split; apply in_or_app; [left|right].
    - refine (in_zipw (fun q m => Rabs (vx q / m)) _ _ i v0 0 _ HL). lia.
    - refine (in_zipw (fun q m => Rabs (vy q / m)) _ _ i v0 0 _ HL). lia. }
  clearbody l. destruct l as [|a l]; [destruct (IN _ H0) as [[] _]|].
  cbn [lmax bind]. change (@nmax R Num_R) with Rmax. destruct (fold_max_ub l a) as (M1 & M2 & _).
  set (vmax := fold_left Rmax l a) in *.
  assert (MX : forall x, In x (a :: l) -> x <= vmax) by (intros x [<-|Hx]; auto).
  assert (V0 : 0 < vmax).
  { destruct (IN _ H0) as [A B]. destruct HQ as [Q|Q].
    - apply Rlt_le_trans with (Rabs (vx (nth i0 (gq G) v0) / nth i0 (gm G) 0)); [|auto]. apply Rabs_pos_lt. unfold Rdiv. apply Rmult_integral_contrapositive_currified; [auto|]. apply Rinv_neq_0_compat. auto.
    - apply Rlt_le_trans with (Rabs (vy (nth i0 (gq G) v0) / nth i0 (gm G) 0)); [|auto]. apply Rabs_pos_lt. unfold Rdiv. apply Rmult_integral_contrapositive_currified; [auto|]. apply Rinv_neq_0_compat. auto. }
  set (crit := flat_map _ L).
  assert (CR : forall c, In c crit <-> exists ph, In ph L /\ s_crit (ph_sol ph) = Some c).
  { intros c. unfold crit. rewrite in_flat_map. split; intros (ph & I & Q); exists ph; (split; [exact I|]).
    - destruct (s_crit (ph_sol ph)); [|destruct Q]. destruct Q as [->|[]]. reflexivity.
    - rewrite Q. left. reflexivity. }
  cbn [lmin bind]. unR. set (tc := _ / vmax). eexists. split; [reflexivity|].
  destruct (fold_min_lb crit tc) as (L1 & L2 & L3). set (m := fold_left Rmin crit tc) in *.
  assert (D0 : 0 < Rmin dx dy) by (apply Rmin_pos; auto).
  assert (T0 : tc = 1/10 * Rmin dx dy / vmax) by (unfold tc, lit; unR; reflexivity).
  assert (TP : 0 < tc) by (rewrite T0; apply Rdiv_lt_0_compat; lra).
  assert (M0 : 0 < m).
  { destruct L3 as [<-|I]; [exact TP|]. apply CR in I. destruct I as (ph & I & Q). eauto. }
  assert (TV : tc * vmax = 1/10 * Rmin dx dy) by (rewrite T0; field; lra).
  split; [apply Rmult_lt_0_compat; auto|]. split.
  - assert (W : forall w, 0 <= w -> w <= vmax -> p_CFL P * m * w <= p_CFL P * (1/10 * Rmin dx dy)).
    { intros w W0 W1. rewrite Rmult_assoc. apply Rmult_le_compat_l; [lra|]. rewrite <- TV.
      apply Rmult_le_compat; lra. }
    intros i Hi. cbv zeta. destruct (IN _ Hi) as [A B]. split; apply W; auto using Rabs_pos.
  - intros ph c I Q. apply Rmult_le_compat_l; [lra|]. apply L2. apply CR. eauto.
Qed.

Example x_C45_dynamic : forall G : grid R,
  let G := G <| gm := [1; 0; 2; 1] |> <| gq := [v0; v0; mkV3 3 0 0; mkV3 1 (-1) 0] |> in
  exists dt, dynamic_dt (ex_params ex_bounds) G (ex_L Elastic) = Ok dt /\ 0 < dt /\ dt * (3 / 2) <= 1 / 10.
Proof.
  intros G0 G. destruct (p_C45_dynamic (ex_params ex_bounds) G (ex_L Elastic) 1 1) as (dt & E & P & B & _).
  - reflexivity.
  - reflexivity.
  - lra.
  - lra.
  - cbn. lra.
  - reflexivity.
  - intros ph c [<-|[]] Q. discriminate.
  - exists 2%nat. cbn. split; [lia|]. split; [lra|]. left. lra.
  - exists dt. split; [exact E|]. split; [exact P|]. destruct (B 2%nat) as [B1 _]; [cbn; lia|]. cbn in B1.
    rewrite Rabs_right in B1 by lra. rewrite Rmin_left in B1 by lra. lra.
Qed.

(** [P.G.dx] is required although the grid computes it itself. *)
Lemma p_C45_needs_dx : forall (P : params R) G L, pdx (pG P) = None -> dynamic_dt P G L = Err AttributeError.
Proof. intros P G L E. unfold dynamic_dt. rewrite E. reflexivity. Qed.

(** When nothing moves and no phase has a critical time, the new step is
    infinite.  Numbers are the reals with infinities and NaN. *)
Lemma p_C45_at_rest_refuted : forall (P : params (X R)) G L dx dy c,
  pdx (pG P) = Some (Fin dx) -> pdy (pG P) = Some (Fin dy) -> 0 < dx -> 0 < dy -> p_CFL P = Fin c -> 0 < c ->
  length (gq G) = length (gm G) -> (0 < length (gm G))%nat ->
  Forall (fun m => exists r, m = Fin r) (gm G) ->
  Forall (fun q => vx q = Fin 0 /\ vy q = Fin 0) (gq G) ->
  Forall (fun ph => s_crit (ph_sol ph) = None) L ->
  dynamic_dt P G L = Ok PInf.
Proof.
  intros P G L dx dy c EX EY HX HY EC HC HL H0 FM FQ FL. unfold dynamic_dt. rewrite EX, EY. cbn [attr bind].
  set (l := zipw _ _ _ ++ zipw _ _ _).
  assert (Z : Forall (fun a => a = Fin 0) l).
  { apply Forall_app. rewrite Forall_forall in FM, FQ.
    assert (D : forall a m, In (a, m) (combine (gq G) (gm G)) -> vx a = Fin 0 /\ vy a = Fin 0 /\ exists r, m = Fin r).
    { intros a m I. destruct (FQ a (in_combine_l _ _ _ _ I)) as [A B]. split; [exact A|]. split; [exact B|]. exact (FM m (in_combine_r _ _ _ _ I)). }
    assert (N : forall r : R, nabs (nan0 (@Fin R 0 / Fin r)%num) = Fin 0).
    { intros r. change (xabs (xnan0 (if Reqb r 0 then xinf_sign 0 false else Fin (0 / r))) = Fin 0).
      assert (Z : xinf_sign 0 false = NaN).
      { unfold xinf_sign. change (n0 <? 0)%num with (Rltb 0 0). change (0 <? n0)%num with (Rltb 0 0).
        rewrite (proj2 (Rltb_false 0 0)) by lra. reflexivity. }
      destruct (Reqb r 0).
      - rewrite Z. change (Fin (Rabs 0) = Fin 0). rewrite Rabs_R0. reflexivity.
      - change (Fin (Rabs (0 / r)) = Fin 0). unfold Rdiv. rewrite Rmult_0_l, Rabs_R0. reflexivity. }
    split; apply Forall_forall; intros x I; destruct (zipw_in _ _ _ _ I) as (q & m & J & ->); destruct (D _ _ J) as (A & B & r & ->).
    - rewrite A. apply N.
    - rewrite B. apply N. }
  assert (LN : l <> []).
  { unfold l. destruct (gq G) as [|q lq], (gm G) as [|m lm]; cbn in H0, HL |- *; try lia; discriminate. }
  assert (MZ : lmax l = Ok (Fin 0)).
  { clearbody l. destruct l as [|a l']; [congruence|]. cbn [lmax]. f_equal. inversion Z as [|? ? -> Z']. clear - Z'.
    induction Z' as [|b l' -> _ IH]; [reflexivity|]. cbn [fold_left]. cbn [nmax Num_X xmax Num_R]. rewrite Rmax_left by lra. exact IH. }
  rewrite MZ. cbn [bind].
  assert (C : flat_map (fun ph => match s_crit (ph_sol ph) with Some c => [c] | None => [] end) L = []).
  { clear - FL. induction FL as [|ph L E _ IH]; [reflexivity|]. cbn [flat_map]. rewrite E. exact IH. }
  rewrite C. cbn [lmin fold_left bind]. rewrite EC. f_equal.
  assert (D0 : 0 < Rmin dx dy) by (apply Rmin_pos; auto).
  assert (T : (lit 1 10 * nmin (Fin dx) (Fin dy) / @Fin R 0)%num = PInf).
  { change (xdiv (xmul (if Reqb 10 0 then xinf_sign 1 false else Fin (1 / 10)) (Fin (Rmin dx dy))) (Fin 0) = PInf).
    rewrite (proj2 (Reqb_false 10 0)) by lra.
    change ((if Reqb 0 0 then xinf_sign (1 / 10 * Rmin dx dy) false else Fin (1 / 10 * Rmin dx dy / 0)) = PInf).
    rewrite (proj2 (Reqb_true 0 0)) by reflexivity. unfold xinf_sign.
    change (n0 <? 1 / 10 * Rmin dx dy)%num with (Rltb 0 (1 / 10 * Rmin dx dy)).
    rewrite (proj2 (Rltb_true _ _)); [reflexivity|]. cbn [n0 Num_R]. lra. }
  rewrite T. change (xinf_sign c false = PInf). unfold xinf_sign. change (n0 <? c)%num with (Rltb 0 c).
  rewrite (proj2 (Rltb_true 0 c)) by (cbn [n0 Num_R]; lra). reflexivity.
Qed.

Example x_C45_at_rest_refuted : forall G : grid (X R),
  dynamic_dt (ex_params ex_bounds) (G <| gm := [Fin 1; Fin 0] |> <| gq := [mkV3 (Fin 0) (Fin 0) (Fin 0); mkV3 (Fin 0) (Fin 0) (Fin 0)] |>)
    (ex_L Elastic) = Ok PInf.
Proof.
  intros G. apply p_C45_at_rest_refuted with (dx := 1) (dy := 1) (c := 1); try reflexivity; try lra.
  - cbn. lia.
  - cbn. repeat constructor; eexists; reflexivity.
  - cbn. repeat constructor.
  - repeat constructor.
Qed.

(** ** C56 *)
(** [k] calls, one after the other. *)
Fixpoint iter_res {A} (k : nat) (f : A -> res A) (a : A) : res A :=
  match k with O => Ok a | Datatypes.S k => bind (f a) (iter_res k f) end.
(** Once a point has yielded, every further call divides [dt] and [savetime] by
    20 again: after [k] calls by [20^k].  The claim is that this happens once. *)
Lemma p_C56_once_refuted : forall (k : nat) (yf : list R) s q, yt_q s = Some q ->
  yt_yielded s = true \/ (exists f, In f yf /\ 99 / 100 < f) ->
  exists s', iter_res k (yield_update yf) s = Ok s' /\
    yt_dt s' = yt_dt s / 20 ^ k /\ yt_save s' = yt_save s / 20 ^ k.
Proof.
  induction k as [|k IH]; intros yf s q EQ HY; cbn [iter_res].
  - exists s. split; [reflexivity|]. cbn [pow]. split; field.
  - assert (Y : (yt_yielded s || existsb (fun f => (lit 99 100 <? f)%num) yf)%bool = true).
    { apply orb_true_iff. destruct HY as [Y|(f & I & F)]; [left; exact Y|right]. apply existsb_exists. exists f. split; [exact I|].
      unfold lit. apply Rltb_true. exact F. }
    assert (E : exists s1, yield_update yf s = Ok s1 /\ yt_yielded s1 = true /\ yt_q s1 = Some q /\ yt_dt s1 = yt_dt s / 20 /\ yt_save s1 = yt_save s / 20).
    { unfold yield_update. cbv zeta. rewrite Y, EQ. eexists. split; [reflexivity|]. repeat split. }
    destruct E as (s1 & E & Y1 & Q1 & D1 & S1). rewrite E. cbn [bind].
    destruct (IH yf s1 q Q1 (or_introl Y1)) as (s' & E' & D' & S'). exists s'. split; [exact E'|].
    rewrite D', S', D1, S1. cbn [pow]. assert (20 ^ k <> 0) by (apply pow_nonzero; lra). split; field; auto.
Qed.
(** Before any point has yielded nothing changes, and [dt], [savetime] are
    divided by 20 on the first call that finds a yielded point. *)
Lemma p_C56_first_yield : forall (yf : list R) s q, yt_q s = Some q -> yt_yielded s = false ->
  exists s', yield_update yf s = Ok s' /\
    ((forall f, In f yf -> f <= 99 / 100) -> s' = s) /\
    (forall f, In f yf -> 99 / 100 < f -> yt_yielded s' = true /\ yt_dt s' = yt_dt s / 20 /\ yt_save s' = yt_save s / 20).
Proof.
  intros yf s q EQ HY. unfold yield_update. cbv zeta. rewrite HY, EQ. cbn [orb attr bind].
  destruct (existsb _ yf) eqn:EX.
  - eexists. split; [reflexivity|]. split.
    + intros F. apply existsb_exists in EX. destruct EX as (f & I & B). apply F in I. unfold lit in B. apply Rltb_true in B.
      change (99 / 100 < f) in B. lra.
    + intros f I F. repeat split.
  - eexists. split; [reflexivity|]. split.
    + intros _. destruct s; cbn in *. subst. reflexivity.
    + intros f I F. exfalso. rewrite <- not_true_iff_false in EX. apply EX. apply existsb_exists. exists f. split; [exact I|].
      unfold lit. apply Rltb_true. exact F.
Qed.
(** [P.q] is never defined by the code: the update then always fails once a
    point yields. *)
Lemma p_C56_needs_q : forall (yf : list R) s, yt_q s = None ->
  yt_yielded s = true \/ (exists f, In f yf /\ 99 / 100 < f) -> yield_update yf s = Err AttributeError.
Proof.
  intros yf s EQ HY. unfold yield_update. cbv zeta.
  assert (Y : (yt_yielded s || existsb (fun f => (lit 99 100 <? f)%num) yf)%bool = true).
  { apply orb_true_iff. destruct HY as [Y|(f & I & F)]; [left; exact Y|right]. apply existsb_exists. exists f. split; [exact I|].
    unfold lit. apply Rltb_true. exact F. }
  rewrite Y, EQ. reflexivity.
Qed.
Example x_C56_once_refuted : exists s', iter_res 2 (yield_update [1 : R]) (mkYtime false 100 7 (1/10) (1/2) (Some 3)) = Ok s' /\
  yt_dt s' = 1 / 10 / 20 ^ 2 /\ yt_save s' = 1 / 2 / 20 ^ 2.
Proof.
  apply (p_C56_once_refuted 2 [1] (mkYtime false 100 7 (1/10) (1/2) (Some 3)) 3); [reflexivity|].
  right. exists 1. split; [left; reflexivity|lra].
Qed.
