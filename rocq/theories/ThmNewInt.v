(** * The stand-alone segregation solver *)
From Coq Require Import ZArith List Bool Arith Lia Reals Lra.
From Verif Require Import State NumR LibR LibList Spec ModelGrid ModelIntegr ModelNewInt ThmSeg ThmGrad.
Import ListNotations.
Local Open Scope R_scope.
Local Existing Instance Num_R.

(** ** C57 *)
(** Reconstructed values left and right of position [i]. *)
Definition rec_l (dx : R) N (c : nat -> R) i := c i - dx / 2 * nlimiter ((c i - rollp N c i) / dx) ((rollm N c i - c i) / dx).
Definition rec_r (dx : R) N (c : nat -> R) i := c i + dx / 2 * nlimiter ((c i - rollp N c i) / dx) ((rollm N c i - c i) / dx).
(** Numerical flux between a left value [a] and a right value [b]. *)
Definition face (a b v : R) : R := nflux b v + nflux a v - Rmax (Rabs (nvelocity a v)) (Rabs (nvelocity b v)) * (b - a).
Lemma nKT_face dx N c v i : dx <> 0 -> (1 <= i)%nat -> (i + 1 < N)%nat ->
  nKT dx N c v i = (face (rec_r dx N c (i - 1)) (rec_l dx N c i) (v (i - 1)%nat) - face (rec_r dx N c i) (rec_l dx N c (i + 1)) (v (i + 1)%nat)) / (2 * dx).
Proof.
  intros Hd H1 H2. unfold nKT. cbv zeta.
  assert (RP : forall f : nat -> R, rollp N f i = f (i - 1)%nat) by (intros f; apply rollp_in; lia).
  assert (RM : forall f : nat -> R, rollm N f i = f (i + 1)%nat) by (intros f; apply rollm_in; lia).
  rewrite !(RP v), !(RM v). 
  rewrite !(RM (fun i0 => c i0 - dx / n2 * nlimiter ((c i0 - rollp N c i0) / dx) ((rollm N c i0 - c i0) / dx))%num).
  rewrite !(RP (fun i0 => c i0 + dx / n2 * nlimiter ((c i0 - rollp N c i0) / dx) ((rollm N c i0 - c i0) / dx))%num).
  change (c i - dx / n2 * nlimiter ((c i - rollp N c i) / dx) ((rollm N c i - c i) / dx))%num with (rec_l dx N c i).
  change (c i + dx / n2 * nlimiter ((c i - rollp N c i) / dx) ((rollm N c i - c i) / dx))%num with (rec_r dx N c i).
  change (c (i + 1)%nat - dx / n2 * nlimiter ((c (i + 1)%nat - rollp N c (i + 1)) / dx) ((rollm N c (i + 1) - c (i + 1)%nat) / dx))%num with (rec_l dx N c (i + 1)).
  change (c (i - 1)%nat + dx / n2 * nlimiter ((c (i - 1)%nat - rollp N c (i - 1)) / dx) ((rollm N c (i - 1) - c (i - 1)%nat) / dx))%num with (rec_r dx N c (i - 1)).
  unfold face. cbn [nadd nsub nmul ndiv nopp nmax nabs Num_R]. unfold n2. cbn [nofZ nadd n1 Num_R]. field. exact Hd.
Qed.
Lemma nvelocity_0 (c : R) : nvelocity c 0 = 0.
Proof. unfold nvelocity. cbn. ring. Qed.
Lemma face_0 a b : face a b 0 = 0.
Proof. unfold face, nflux. rewrite !nvelocity_0. cbn. rewrite Rabs_R0, Rmax_left by lra. ring. Qed.
(** The scheme on a padded line: velocity [w] inside, zero outside; any values
    of [c], those outside included. *)
Lemma nKT_sum dx n (c : nat -> R) (w : R) : dx <> 0 -> (1 <= n)%nat -> fsum n (fun i => nKT dx (n + 2) c (pad_zero n (fun _ => w)) (i + 1)) = 0.
Proof.
  intros Hd Hn. set (F := fun i => if Nat.eqb i 0 then 0 else if Nat.eqb i n then 0 else face (rec_r dx (n + 2) c i) (rec_l dx (n + 2) c (i + 1)) w).
  rewrite (fsum_ext _ _ (fun i => - / (2 * dx) * (F (Datatypes.S i) - F i))).
  - rewrite (fsum_scal _ _ (fun i => F (Datatypes.S i) - F i)), fsum_tele. unfold F. rewrite Nat.eqb_refl. destruct (Nat.eqb_spec n 0); [lia|]. cbn [Nat.eqb]. ring.
  - intros i Hi. rewrite nKT_face by (assumption || lia). replace (i + 1 - 1)%nat with i by lia. replace (i + 1 + 1)%nat with (Datatypes.S (i + 1)) by lia.
    assert (FL : face (rec_r dx (n + 2) c i) (rec_l dx (n + 2) c (i + 1)) (pad_zero n (fun _ => w) i) = F i).
    { unfold pad_zero, F. destruct (Nat.eqb_spec i 0); [apply face_0|]. destruct (Nat.eqb_spec i (n + 1)); [lia|]. destruct (Nat.eqb_spec i n); [lia|reflexivity]. }
    assert (FR : face (rec_r dx (n + 2) c (i + 1)) (rec_l dx (n + 2) c (Datatypes.S (i + 1))) (pad_zero n (fun _ => w) (Datatypes.S (i + 1))) = F (Datatypes.S i)).
    { unfold pad_zero, F. destruct (Nat.eqb_spec (Datatypes.S (i + 1)) 0); [lia|]. destruct (Nat.eqb_spec (Datatypes.S i) 0); [lia|].
      destruct (Nat.eqb_spec (Datatypes.S (i + 1)) (n + 1)); [destruct (Nat.eqb_spec (Datatypes.S i) n); [apply face_0|lia]|].
      destruct (Nat.eqb_spec (Datatypes.S i) n); [lia|]. replace (i + 1)%nat with (Datatypes.S i) by lia. replace (Datatypes.S i + 1)%nat with (Datatypes.S (Datatypes.S i)) by lia. reflexivity. }
    rewrite FL, FR. field. exact Hd.
Qed.
(** One explicit step, every concentration profile and length. *)
Lemma p_C57_euler : forall dx dt n (c : nat -> R) (w : R), dx <> 0 -> (1 <= n)%nat -> fsum n (nEuler dx dt n c (fun _ => w)) = 0.
Proof.
  intros dx dt n c w Hd Hn. unfold nEuler. cbn [nmul Num_R].
  rewrite (fsum_scal _ _ (fun i => nKT dx (n + 2) (pad_edge n c) (pad_zero n (fun _ => w)) (i + 1))), nKT_sum by assumption. ring.
Qed.
Lemma p_C57_rk4 : forall dx dt n (c : nat -> R) (w : R), dx <> 0 -> (1 <= n)%nat -> fsum n (nRK4 dx dt n c (fun _ => w)) = 0.
Proof.
  intros dx dt n c w Hd Hn. unfold nRK4. cbv zeta. cbn [nadd nmul ndiv Num_R].
  match goal with |- fsum n (fun i => _ * (?k1 (i + 1)%nat + _ * ?k2 (i + 1)%nat + _ * ?k3 (i + 1)%nat + ?k4 (i + 1)%nat)) = 0 =>
    rewrite (fsum_scal _ _ (fun i => k1 (i + 1)%nat + n2 * k2 (i + 1)%nat + n2 * k3 (i + 1)%nat + k4 (i + 1)%nat)),
      (fsum_plus _ (fun i => k1 (i + 1)%nat + n2 * k2 (i + 1)%nat + n2 * k3 (i + 1)%nat)), (fsum_plus _ (fun i => k1 (i + 1)%nat + n2 * k2 (i + 1)%nat)), (fsum_plus _ (fun i => k1 (i + 1)%nat)),
      (fsum_scal _ n2 (fun i => k2 (i + 1)%nat)), (fsum_scal _ n2 (fun i => k3 (i + 1)%nat)) end.
  rewrite !nKT_sum by assumption. ring.
Qed.
(** The scheme that main uses: the total concentration stays the same. *)
Lemma p_C57_rk3 : forall dx dt n (c : nat -> R) (w : R), dx <> 0 -> (1 <= n)%nat -> fsum n (nRK3 dx dt n c (fun _ => w)) = fsum n c.
Proof.
  intros dx dt n c w Hd Hn. unfold nRK3. cbv zeta. set (V := pad_zero n (fun _ => w)). set (C := pad_edge n c).
  set (c1 := fun i => (C i + dt * nKT dx (n + 2) C V i)%num). set (c2 := fun i => (lit 3 4 * C i + lit 1 4 * (c1 i + dt * nKT dx (n + 2) c1 V i))%num).
  set (a := 66667 / 100000 / 4 * dt). set (b := 66667 / 100000 * dt).
  rewrite (fsum_ext _ _ (fun i => C (i + 1)%nat + (a * nKT dx (n + 2) C V (i + 1) + (a * nKT dx (n + 2) c1 V (i + 1) + b * nKT dx (n + 2) c2 V (i + 1))))).
  2:{ intros i Hi. change (lit 33333 100000 * C (i + 1)%nat + lit 66667 100000 * ((lit 3 4 * C (i + 1)%nat + lit 1 4 * ((C (i + 1)%nat + dt * nKT dx (n + 2) C V (i + 1)) + dt * nKT dx (n + 2) c1 V (i + 1)))
        + dt * nKT dx (n + 2) c2 V (i + 1)) = C (i + 1)%nat + (a * nKT dx (n + 2) C V (i + 1) + (a * nKT dx (n + 2) c1 V (i + 1) + b * nKT dx (n + 2) c2 V (i + 1)))).
      unfold a, b, lit. cbn [ndiv nofZ Num_R]. field. }
  assert (Z : forall k (d : nat -> R), fsum n (fun i => k * nKT dx (n + 2) d V (i + 1)) = 0).
  { intros k d. rewrite (fsum_scal _ _ (fun i => nKT dx (n + 2) d V (i + 1))). unfold V. rewrite nKT_sum by assumption. ring. }
  rewrite (fsum_plus _ (fun i => C (i + 1)%nat)), (fsum_plus _ (fun i => a * nKT dx (n + 2) C V (i + 1))), (fsum_plus _ (fun i => a * nKT dx (n + 2) c1 V (i + 1))), !Z.
  rewrite !Rplus_0_r. apply fsum_ext. intros i Hi. unfold C, pad_edge. f_equal. lia.
Qed.
Lemma minmod_bound (a b : R) : Rabs (minmod a b) <= Rabs a /\ Rabs (minmod a b) <= Rabs b /\ 0 <= minmod a b * a /\ 0 <= minmod a b * b.
Proof.
  revert a b. apply by_sign.
  - intros a b Ha Hb. rewrite minmod_pp by assumption. pose proof (Rmin_l a b). pose proof (Rmin_r a b). assert (0 <= Rmin a b) by (apply Rmin_glb; assumption).
    rewrite !Rabs_right by lra. split; [lra|]. split; [lra|]. split; nra.
  - intros a b Ha Hb. rewrite minmod_pn by lra. rewrite Rabs_R0. pose proof (Rabs_pos a). pose proof (Rabs_pos b). lra.
  - intros a b H. rewrite minmod_opp, !Rabs_Ropp in H. destruct H as (A & B & C & D). split; [exact A|]. split; [exact B|]. split; lra.
Qed.
Lemma rec_bound dx N (c : nat -> R) i : 0 < dx -> (forall k, 0 <= c k <= 1) -> 0 <= rec_l dx N c i <= 1 /\ 0 <= rec_r dx N c i <= 1.
Proof.
  intros Hd Hc. unfold rec_l, rec_r, nlimiter. set (a := (c i - rollp N c i) / dx). set (b := (rollm N c i - c i) / dx).
  destruct (minmod_bound a b) as (A & B & C & D). set (m := minmod a b) in *.
  assert (Ea : c i - rollp N c i = dx * a) by (unfold a; field; lra). assert (Eb : rollm N c i - c i = dx * b) by (unfold b; field; lra).
  assert (Hp : 0 <= rollp N c i <= 1) by (unfold rollp; apply Hc). assert (Hm : 0 <= rollm N c i <= 1) by (unfold rollm; apply Hc). pose proof (Hc i) as Hi.
  destruct (Rtotal_order m 0) as [L|[Z|G]].
  - assert (a <= 0) by nra. assert (b <= 0) by nra. rewrite !Rabs_left1 in A, B by lra.
    assert (dx * a <= dx * m) by (apply Rmult_le_compat_l; lra). assert (dx * b <= dx * m) by (apply Rmult_le_compat_l; lra). assert (dx * m <= 0) by nra. lra.
  - rewrite Z. lra.
  - assert (0 <= a) by nra. assert (0 <= b) by nra. rewrite !Rabs_right in A, B by lra.
    assert (dx * m <= dx * a) by (apply Rmult_le_compat_l; lra). assert (dx * m <= dx * b) by (apply Rmult_le_compat_l; lra). assert (0 <= dx * m) by nra. lra.
Qed.
(** Divisors that [velocity] meets when called by [KT]: with concentrations
    between 0 and 1 they are between 1 and 5/2, so nothing divides by zero. *)
Lemma p_C57_divisors : forall dx N (c : nat -> R) i, 0 < dx -> (forall k, 0 <= c k <= 1) ->
  forall s, s = 1 \/ s = -1 ->
  let r := c i + s * (dx / 2 * nlimiter ((c i - rollp N c i) / dx) ((rollm N c i - c i) / dx)) in
  0 <= r <= 1 /\ 1 <= r + (1 - r) * (5 / 2) <= 5 / 2.
Proof.
  intros dx N c i Hd Hc s Hs r. destruct (rec_bound dx N c i Hd Hc) as [A B].
  assert (0 <= r <= 1); [|lra]. unfold r. destruct Hs as [-> | ->]; [unfold rec_r in B|unfold rec_l in A]; lra.
Qed.
Lemma nlim_0 : nlimiter (0 : R) 0 = 0.
Proof. unfold nlimiter. rewrite minmod_pp by lra. apply Rmin_left. lra. Qed.
Lemma rec_const dx N (k : R) i : dx <> 0 -> rec_l dx N (fun _ => k) i = k /\ rec_r dx N (fun _ => k) i = k.
Proof. intros Hd. unfold rec_l, rec_r, rollp, rollm. replace ((k - k) / dx) with 0 by (field; exact Hd). rewrite nlim_0. split; ring. Qed.
Lemma nKT_pure dx N (k : R) v i : dx <> 0 -> (1 <= i)%nat -> (i + 1 < N)%nat -> k = 0 \/ k = 1 -> nKT dx N (fun _ => k) v i = 0.
Proof.
  intros Hd H1 H2 Hk. rewrite nKT_face by assumption. 
  assert (F : forall w, face k k w = 0).
  { intros w. unfold face, nflux, nvelocity, lit. cbn [nmul nadd nsub ndiv nofZ n1 Num_R]. destruct Hk as [-> | ->]; field. }
  destruct (rec_const dx N k (i - 1) Hd) as [_ ->]. destruct (rec_const dx N k i Hd) as [-> ->]. destruct (rec_const dx N k (i + 1) Hd) as [-> _]. rewrite !F. field. exact Hd.
Qed.
(** A column of one kind of grain does not change, whatever the velocity. *)
Lemma p_C57_pure : forall dx dt n (v : nat -> R) (k : R) i, dx <> 0 -> (i < n)%nat -> k = 0 \/ k = 1 -> nEuler dx dt n (fun _ => k) v i = 0.
Proof.
  intros dx dt n v k i Hd Hi Hk. unfold nEuler. change (pad_edge n (fun _ => k)) with (fun _ : nat => k). rewrite nKT_pure by (assumption || lia). cbn. ring.
Qed.
(** Exact gain for a velocity that varies: one term for each face inside. *)
Lemma p_C57_defect : forall dx dt n (c v : nat -> R), dx <> 0 -> (1 <= n)%nat ->
  let C := pad_edge n c in
  fsum n (nEuler dx dt n c v) =
    dt / (2 * dx) * fsum (n - 1) (fun i =>
      let a := rec_r dx (n + 2) C (i + 1) in let b := rec_l dx (n + 2) C (i + 2) in face a b (v i) - face a b (v (i + 1)%nat)).
Proof.
  intros dx dt n c v Hd Hn C. cbv zeta. destruct n as [|m]; [lia|]. replace (Datatypes.S m - 1)%nat with m by lia.
  set (N := (Datatypes.S m + 2)%nat). set (F := fun i w => face (rec_r dx N C i) (rec_l dx N C (i + 1)) w). set (V := pad_zero (Datatypes.S m) v).
  assert (E : forall i, (i < Datatypes.S m)%nat -> nEuler dx dt (Datatypes.S m) c v i = dt / (2 * dx) * (F i (V i) - F (i + 1)%nat (V (i + 2)%nat))).
  { intros i Hi. unfold nEuler. rewrite nKT_face by (assumption || lia). fold V C N. replace (i + 1 - 1)%nat with i by lia. replace (i + 1 + 1)%nat with (i + 2)%nat by lia.
    unfold F. replace (i + 1 + 1)%nat with (i + 2)%nat by lia. cbn [nmul Num_R]. field. exact Hd. }
  rewrite (fsum_ext _ _ _ E), (fsum_scal _ _ (fun i => F i (V i) - F (i + 1)%nat (V (i + 2)%nat))), (fsum_minus _ (fun i => F i (V i)) (fun i => F (i + 1)%nat (V (i + 2)%nat))). f_equal.
  replace (Datatypes.S m) with (1 + m)%nat at 1 by lia. rewrite fsum_split. replace (Datatypes.S m) with (m + 1)%nat by lia. rewrite fsum_split. cbn [fsum].
  rewrite (fsum_minus _ (fun i => face (rec_r dx N C (i + 1)) (rec_l dx N C (i + 2)) (v i))).
  assert (Z0 : F 0%nat (V 0%nat) = 0) by apply face_0.
  assert (Z1 : F (m + 0 + 1)%nat (V (m + 0 + 2)%nat) = 0).
  { unfold V, pad_zero. destruct (Nat.eqb_spec (m + 0 + 2) 0); [lia|]. destruct (Nat.eqb_spec (m + 0 + 2) (Datatypes.S m + 1)); [apply face_0|lia]. }
  rewrite Z0, Z1.
  rewrite (fsum_ext m (fun i => F (1 + i)%nat (V (1 + i)%nat)) (fun i => face (rec_r dx N C (i + 1)) (rec_l dx N C (i + 2)) (v i))).
  2:{ intros i Hi. unfold F, V, pad_zero. destruct (Nat.eqb_spec (1 + i) 0); [lia|]. destruct (Nat.eqb_spec (1 + i) (Datatypes.S m + 1)); [lia|].
      replace (1 + i - 1)%nat with i by lia. replace (1 + i + 1)%nat with (i + 2)%nat by lia. replace (1 + i)%nat with (i + 1)%nat by lia. reflexivity. }
  rewrite (fsum_ext m (fun i => F (i + 1)%nat (V (i + 2)%nat)) (fun i => face (rec_r dx N C (i + 1)) (rec_l dx N C (i + 2)) (v (i + 1)%nat))).
  2:{ intros i Hi. unfold F, V, pad_zero. destruct (Nat.eqb_spec (i + 2) 0); [lia|]. destruct (Nat.eqb_spec (i + 2) (Datatypes.S m + 1)); [lia|].
      replace (i + 2 - 1)%nat with (i + 1)%nat by lia. replace (i + 1 + 1)%nat with (i + 2)%nat by lia. reflexivity. }
  ring.
Qed.
(** Total of a profile after the diffusion step of new_integrator.py. *)
Lemma p_C57_diffusion : forall D dx dt n (c : nat -> R), (2 <= n)%nat -> dx <> 0 ->
  let g := grad1 (fun i => D * c i) dx n in
  fsum n (ndiffusion D dx dt n c) = fsum n c + dt / dx * (3 / 2 * (g (n - 1)%nat - g 0%nat) + (g 1%nat - g (n - 2)%nat) / 2).
Proof.
  intros D dx dt n c Hn Hd g. unfold ndiffusion. cbn [nadd nmul Num_R].
  rewrite (fsum_plus _ c), (fsum_scal _ _ (grad1 (grad1 (fun i => D * c i) dx n) dx n)), grad1_sum by assumption. fold g. field. exact Hd.
Qed.
