(** * Sums over evenly spread points of tents times affine functions *)
From Coq Require Import ZArith Reals List Bool Arith Lra Lia.
From Verif Require Import State NumR Spec SpecLaws SpecStep SpecScheme LibList LibR ModelGrid ModelInputs ModelConstit ModelParticle ModelMPList
  ModelIntegr ModelMain ProofsGrid ProofsMap ProofsP2G ProofsWalls ProofsLaws ProofsInOut ProofsHist Concrete
  ThmMapping ThmWalls ThmLaws ThmInOut ThmHist ProofsStep ProofsPoints ThmStep ThmBalance ThmEnergy ThmFall ThmGeo ProofsScheme ThmScheme
  ThmDensity ProofsFill.
Import ListNotations.
Local Open Scope R_scope.

(** ** Points around a node *)
Section Around.
  Context (lo w : R) (c m i : nat) (Hw : 0 < w) (Hc : (1 <= c)%nat) (Hi : (0 < i < m)%nat).
  Let X (q : nat) : R := pt lo w c q.
  Let N : R := lo + INR i * w.
  Lemma both_sides gr gl : beside m i gr gl = gr + gl.
  Proof. unfold beside. rewrite (proj2 (Nat.ltb_lt i m)), (proj2 (Nat.ltb_lt 0 i)), (proj2 (Nat.leb_le i m)) by lia. reflexivity. Qed.
  Lemma around_tent : fsum (m * c) (fun q => tent ((X q - N) / w)) = INR c.
  Proof. unfold X, N. rewrite tents by assumption. rewrite both_sides. lra. Qed.
  Lemma around_slope : fsum (m * c) (fun q => slope ((X q - N) / w)) = 0.
  Proof. unfold X, N. rewrite slopes by assumption. rewrite both_sides. lra. Qed.
  Lemma around_xtent : fsum (m * c) (fun q => X q * tent ((X q - N) / w)) = INR c * N.
  Proof.
    assert (Z : fsum (m * c) (fun q => (X q - N) * tent ((X q - N) / w)) = 0).
    { rewrite fsum_rows. set (u := fun r => (INR r + 1/2) / INR c).
      rewrite (fsum_ext m _ (fun a => fsum c (fun r => if Nat.eqb a i then w * u r * (1 - u r) else if Nat.eqb (Datatypes.S a) i then w * (u r - 1) * u r else 0))).
      2:{ intros a _. apply fsum_ext. intros r Hr. unfold X, N. rewrite pt_in_cell by assumption. rewrite tent_at by assumption. fold (u r).
          rewrite pt_cell by assumption. fold (u r). destruct (Nat.eqb_spec a i) as [->|N1]; [ring|]. destruct (Nat.eqb_spec (Datatypes.S a) i) as [<-|N2]; [rewrite S_INR; ring|ring]. }
      rewrite (two_cells c Hc m i _ (fsum c (fun r => w * u r * (1 - u r))) (fsum c (fun r => w * (u r - 1) * u r))).
      - rewrite both_sides, <- fsum_plus. apply fsum_zero. intros r _. ring.
      - intros a A B. apply fsum_zero. intros r _. rewrite (proj2 (Nat.eqb_neq _ _) A), (proj2 (Nat.eqb_neq _ _) B). reflexivity.
      - intros a ->. rewrite Nat.eqb_refl. reflexivity.
      - intros a <-. rewrite Nat.eqb_refl. rewrite (proj2 (Nat.eqb_neq a (Datatypes.S a))) by lia. reflexivity. }
    rewrite (fsum_ext _ _ (fun q => (X q - N) * tent ((X q - N) / w) + tent ((X q - N) / w) * N)) by (intros; ring).
    rewrite fsum_plus, Z, fsum_scal_r, around_tent. ring.
  Qed.
  Lemma around_xslope : fsum (m * c) (fun q => X q * slope ((X q - N) / w)) = - (INR c * w).
  Proof.
    pose proof (depth_slopes lo w c Hw Hc m i) as D. rewrite both_sides in D. fold N in D.
    rewrite (fsum_ext _ _ (fun q => (lo + INR m * w) * slope ((X q - N) / w) + - 1 * (X q * slope ((X q - N) / w)))) in D by (intros; unfold X; ring).
    rewrite fsum_plus, !fsum_scal, around_slope in D. lra.
  Qed.
End Around.

(** ** Nodes around a point *)
Section Nodes.
  Context (lo w : R) (n d : nat) (x : R) (Hw : 0 < w) (Hx : lo + INR d * w <= x < lo + (INR n - 1 - INR d) * w).
  Lemma find_cell : exists i t, (d <= i)%nat /\ (i + 1 + d < n)%nat /\ x = lo + (INR i + t) * w /\ 0 <= t < 1.
  Proof.
    set (y := (x - lo) / w). assert (Hy : INR d <= y < INR n - 1 - INR d).
    { unfold y. split.
      - apply Rmult_le_reg_r with w; [exact Hw|]. unfold Rdiv. rewrite Rmult_assoc, Rinv_l by lra. lra.
      - apply Rmult_lt_reg_r with w; [exact Hw|]. unfold Rdiv. rewrite Rmult_assoc, Rinv_l by lra. lra. }
    assert (K : forall k, INR d <= y < INR d + INR k -> exists i t, (d <= i)%nat /\ y = INR i + t /\ 0 <= t < 1).
    { induction k as [|k IH]; intros H; [simpl INR in H; lra|]. rewrite S_INR in H. destruct (Rlt_dec y (INR d + INR k)) as [L|L]; [apply IH; lra|].
      exists (d + k)%nat, (y - INR d - INR k). rewrite plus_INR. split; [lia|]. split; lra. }
    destruct (K n) as (i & t & A & B & C).
    { pose proof (pos_INR d). lra. }
    exists i, t. split; [exact A|]. split.
    - apply INR_lt. rewrite !plus_INR. simpl INR. lra.
    - split; [|exact C]. rewrite <- B. unfold y. field. lra.
  Qed.
  Context (i : nat) (t : R) (Hi : (i + 1 < n)%nat) (E : x = lo + (INR i + t) * w) (Ht : 0 <= t < 1).
  Lemma at_node k : (x - (lo + INR k * w)) / w = INR i - INR k + t.
  Proof. rewrite E. field. lra. Qed.
  Lemma two_terms g : (forall k, k <> i -> k <> (i + 1)%nat -> g k = 0) -> fsum n g = g i + g (i + 1)%nat.
  Proof.
    intros Hg. rewrite (fsum_ext _ _ (fun k => (if Nat.eqb k i then g i else 0) + (if Nat.eqb k (i + 1) then g (i + 1)%nat else 0))).
    - rewrite fsum_plus. rewrite (fsum_delta n i) by lia. rewrite (fsum_delta n (i + 1)) by lia. reflexivity.
    - intros k _. destruct (Nat.eqb_spec k i) as [->|A].
      + rewrite (proj2 (Nat.eqb_neq i (i + 1))) by lia. lra.
      + destruct (Nat.eqb_spec k (i + 1)) as [->|B]; [lra|]. rewrite (Hg k A B). lra.
  Qed.
  Lemma away k : k <> i -> k <> (i + 1)%nat -> INR i - INR k + t < -1 \/ 1 <= INR i - INR k + t.
  Proof.
    intros A B. destruct (Nat.lt_ge_cases k i).
    - right. pose proof (le_INR (k + 1) i ltac:(lia)) as D. rewrite plus_INR in D. simpl INR in D. lra.
    - left. pose proof (le_INR (i + 2) k ltac:(lia)) as D. rewrite plus_INR in D. simpl INR in D. lra.
  Qed.
  Lemma nodes_tent f : fsum n (fun k => f k * tent ((x - (lo + INR k * w)) / w)) = f i * (1 - t) + f (i + 1)%nat * t.
  Proof.
    rewrite two_terms.
    - rewrite !at_node, plus_INR. simpl INR. rewrite tent_left by lra. rewrite tent_right by lra. ring.
    - intros k A B. rewrite at_node. rewrite tent_far by (destruct (away k A B); lra). ring.
  Qed.
  Lemma nodes_slope f : fsum n (fun k => f k * slope ((x - (lo + INR k * w)) / w)) = f (i + 1)%nat - f i.
  Proof.
    rewrite two_terms.
    - rewrite !at_node, plus_INR. simpl INR. rewrite slope_mid by lra. rewrite slope_low by lra. ring.
    - intros k A B. rewrite at_node. rewrite slope_far by (destruct (away k A B); lra). ring.
  Qed.
End Nodes.

(** ** A layer of points with affine fields *)
Definition lin (f0 fx fy x y : R) : R := f0 + fx * x + fy * y.
Lemma node_ij (P : gridp R) i j : (i < nx P)%nat -> node_x P (j * nx P + i) = x_m P + INR i * cell_w P /\ node_y P (j * nx P + i) = y_m P + INR j * cell_h P.
Proof.
  intros Hi. unfold node_x, node_y, col, row. replace (j * nx P + i)%nat with (i + j * nx P)%nat by lia.
  rewrite Nat.mod_add by lia. rewrite Nat.div_add by lia. rewrite Nat.mod_small, Nat.div_small by exact Hi. split; reflexivity.
Qed.

Section Affine.
  Context (P : gridp R) (HP : proper P) (c rows : nat) (Hc : (1 <= c)%nat) (Hr : (1 <= rows <= ny P - 1)%nat).
  Let C2 : R := INR c * INR c.
  Let lay := layer P c rows (head P rows).
  Let at_ (xy : R * R) : V3 R := mkV3 (fst xy) (snd xy) 0.
  Section Node.
    Context (i j : nat) (Hi : (0 < i < nx P - 1)%nat) (Hj : (0 < j < rows)%nat).
    Let k := (j * nx P + i)%nat.
    Let Wx := proj1 (cw P HP).
    Let Wy := proj1 (ch P HP).
    Lemma lay_hat f0 fx fy : Rsum (map (fun xy => lin f0 fx fy (fst xy) (snd xy) * hat P (at_ xy) k) lay) = C2 * lin f0 fx fy (node_x P k) (node_y P k).
    Proof.
      destruct (node_ij P i j ltac:(lia)) as [NX NY]. fold k in NX, NY. unfold hat, at_. cbn [vx vy]. rewrite NX, NY. clear NX NY.
      set (tx := fun x => tent ((x - (x_m P + INR i * cell_w P)) / cell_w P)). set (ty := fun y => tent ((y - (y_m P + INR j * cell_h P)) / cell_h P)).
      rewrite (map_ext _ (fun xy => f0 * (tx (fst xy) * ty (snd xy)) + (fx * ((fst xy * tx (fst xy)) * ty (snd xy)) + fy * (tx (fst xy) * (snd xy * ty (snd xy)))))).
      2:{ intros xy. unfold lin, tx, ty. ring. }
      rewrite !Rsum_plus, !Rsum_scal. unfold lay. rewrite (layer_sum P HP c rows Hc Hr tx ty).
      rewrite (layer_sum P HP c rows Hc Hr (fun x => x * tx x) ty), (layer_sum P HP c rows Hc Hr tx (fun y => y * ty y)). unfold tx, ty.
      rewrite (around_tent (x_m P) (cell_w P) c (nx P - 1) i Wx Hc Hi), (around_tent (y_m P) (cell_h P) c rows j Wy Hc Hj).
      rewrite (around_xtent (x_m P) (cell_w P) c (nx P - 1) i Wx Hc Hi), (around_xtent (y_m P) (cell_h P) c rows j Wy Hc Hj). unfold lin, C2. ring.
    Qed.
    Lemma lay_gx f0 fx fy : Rsum (map (fun xy => lin f0 fx fy (fst xy) (snd xy) * ghat P (at_ xy) AX k) lay) = - C2 * fx.
    Proof.
      destruct (node_ij P i j ltac:(lia)) as [NX NY]. fold k in NX, NY. unfold ghat, at_. cbn [vx vy]. rewrite NX, NY. clear NX NY.
      set (tx := fun x => slope ((x - (x_m P + INR i * cell_w P)) / cell_w P)). set (ty := fun y => tent ((y - (y_m P + INR j * cell_h P)) / cell_h P)).
      rewrite (map_ext _ (fun xy => f0 / cell_w P * (tx (fst xy) * ty (snd xy)) + (fx / cell_w P * ((fst xy * tx (fst xy)) * ty (snd xy)) + fy / cell_w P * (tx (fst xy) * (snd xy * ty (snd xy)))))).
      2:{ intros xy. unfold lin, tx, ty. field. pose proof Wx. lra. }
      rewrite !Rsum_plus, !Rsum_scal. unfold lay. rewrite (layer_sum P HP c rows Hc Hr tx ty).
      rewrite (layer_sum P HP c rows Hc Hr (fun x => x * tx x) ty), (layer_sum P HP c rows Hc Hr tx (fun y => y * ty y)). unfold tx, ty.
      rewrite (around_slope (x_m P) (cell_w P) c (nx P - 1) i Wx Hc Hi), (around_tent (y_m P) (cell_h P) c rows j Wy Hc Hj).
      rewrite (around_xslope (x_m P) (cell_w P) c (nx P - 1) i Wx Hc Hi), (around_xtent (y_m P) (cell_h P) c rows j Wy Hc Hj). unfold C2. field. pose proof Wx. lra.
    Qed.
    Lemma lay_gy f0 fx fy : Rsum (map (fun xy => lin f0 fx fy (fst xy) (snd xy) * ghat P (at_ xy) AY k) lay) = - C2 * fy.
    Proof.
      destruct (node_ij P i j ltac:(lia)) as [NX NY]. fold k in NX, NY. unfold ghat, at_. cbn [vx vy]. rewrite NX, NY. clear NX NY.
      set (tx := fun x => tent ((x - (x_m P + INR i * cell_w P)) / cell_w P)). set (ty := fun y => slope ((y - (y_m P + INR j * cell_h P)) / cell_h P)).
      rewrite (map_ext _ (fun xy => f0 / cell_h P * (tx (fst xy) * ty (snd xy)) + (fx / cell_h P * ((fst xy * tx (fst xy)) * ty (snd xy)) + fy / cell_h P * (tx (fst xy) * (snd xy * ty (snd xy)))))).
      2:{ intros xy. unfold lin, tx, ty. field. pose proof Wy. lra. }
      rewrite !Rsum_plus, !Rsum_scal. unfold lay. rewrite (layer_sum P HP c rows Hc Hr tx ty).
      rewrite (layer_sum P HP c rows Hc Hr (fun x => x * tx x) ty), (layer_sum P HP c rows Hc Hr tx (fun y => y * ty y)). unfold tx, ty.
      rewrite (around_tent (x_m P) (cell_w P) c (nx P - 1) i Wx Hc Hi), (around_slope (y_m P) (cell_h P) c rows j Wy Hc Hj).
      rewrite (around_xtent (x_m P) (cell_w P) c (nx P - 1) i Wx Hc Hi), (around_xslope (y_m P) (cell_h P) c rows j Wy Hc Hj). unfold C2. field. pose proof Wy. lra.
    Qed.
  End Node.

  (** Points at least [d] cells away from the sides, the floor and the surface of the layer. *)
  Definition deep (d : nat) (x : V3 R) : Prop :=
    x_m P + INR d * cell_w P <= vx x < x_M P - INR d * cell_w P /\
    y_m P + INR d * cell_h P <= vy x < y_m P + INR rows * cell_h P - INR d * cell_h P.
  (** The four nodes around a deep point, and sums over all nodes. *)
  Lemma deep_cell d x : deep d x -> exists i j t s, (d <= i)%nat /\ (i + 1 + d < nx P)%nat /\ (d <= j)%nat /\ (j + 1 + d < rows + 1)%nat /\
    vx x = x_m P + (INR i + t) * cell_w P /\ vy x = y_m P + (INR j + s) * cell_h P /\ 0 <= t < 1 /\ 0 <= s < 1.
  Proof.
    intros [HX HY]. destruct (cw P HP) as [Wx EX], (ch P HP) as [Wy EY]. pose proof HP as (N1 & N2 & _).
    destruct (find_cell (x_m P) (cell_w P) (nx P) d (vx x) Wx) as (i & t & A & B & C & D).
    { rewrite EX in HX. rewrite minus_INR in HX by lia. simpl INR in HX. lra. }
    destruct (find_cell (y_m P) (cell_h P) (rows + 1) d (vy x) Wy) as (j & s & A' & B' & C' & D').
    { rewrite plus_INR. simpl INR. lra. }
    exists i, j, t, s. repeat (split; [assumption|]). exact D'.
  Qed.
  Section Cell.
    Context (x : V3 R) (i j : nat) (t s : R) (Hi : (i + 1 < nx P)%nat) (Hj : (j + 1 < ny P)%nat).
    Context (EX : vx x = x_m P + (INR i + t) * cell_w P) (EY : vy x = y_m P + (INR j + s) * cell_h P) (Ht : 0 <= t < 1) (Hs : 0 <= s < 1).
    Let n00 := (j * nx P + i)%nat.  Let n10 := (j * nx P + (i + 1))%nat.
    Let n01 := ((j + 1) * nx P + i)%nat.  Let n11 := ((j + 1) * nx P + (i + 1))%nat.
    Let Wx := proj1 (cw P HP).
    Let Wy := proj1 (ch P HP).
    Lemma grid_sum (F : nat -> R) (f g : nat -> R) : fsum (nx P * ny P) (fun k => F k * (f (k mod nx P)%nat * g (k / nx P)%nat)) =
      fsum (ny P) (fun j => fsum (nx P) (fun i => F (j * nx P + i)%nat * f i) * g j).
    Proof.
      rewrite Nat.mul_comm, fsum_rows. apply fsum_ext. intros j' _. rewrite <- fsum_scal_r. apply fsum_ext. intros i' Hi'.
      replace (j' * nx P + i')%nat with (i' + j' * nx P)%nat at 2 3 by lia. rewrite Nat.mod_add, Nat.div_add by lia. rewrite Nat.mod_small, Nat.div_small by exact Hi'. rewrite Nat.add_0_l. ring.
    Qed.
    Lemma cell_hat F : fsum (nx P * ny P) (fun k => F k * hat P x k) =
      (F n00 * (1 - t) + F n10 * t) * (1 - s) + (F n01 * (1 - t) + F n11 * t) * s.
    Proof.
      unfold hat, node_x, node_y, col, row.
      rewrite (grid_sum F (fun i => tent ((vx x - (x_m P + INR i * cell_w P)) / cell_w P)) (fun j => tent ((vy x - (y_m P + INR j * cell_h P)) / cell_h P))).
      rewrite (fsum_ext _ _ (fun j' => (F (j' * nx P + i)%nat * (1 - t) + F (j' * nx P + (i + 1))%nat * t) * tent ((vy x - (y_m P + INR j' * cell_h P)) / cell_h P))).
      - rewrite (nodes_tent (y_m P) (cell_h P) (ny P) (vy x) Wy j s Hj EY Hs (fun j' => F (j' * nx P + i)%nat * (1 - t) + F (j' * nx P + (i + 1))%nat * t)). reflexivity.
      - intros j' _. rewrite (nodes_tent (x_m P) (cell_w P) (nx P) (vx x) Wx i t Hi EX Ht (fun i' => F (j' * nx P + i')%nat)). reflexivity.
    Qed.
    Lemma cell_gx F : fsum (nx P * ny P) (fun k => F k * ghat P x AX k) = ((F n10 - F n00) * (1 - s) + (F n11 - F n01) * s) / cell_w P.
    Proof.
      unfold ghat, node_x, node_y, col, row.
      rewrite (grid_sum F (fun i => slope ((vx x - (x_m P + INR i * cell_w P)) / cell_w P) / cell_w P) (fun j => tent ((vy x - (y_m P + INR j * cell_h P)) / cell_h P))).
      rewrite (fsum_ext _ _ (fun j' => (F (j' * nx P + (i + 1))%nat - F (j' * nx P + i)%nat) / cell_w P * tent ((vy x - (y_m P + INR j' * cell_h P)) / cell_h P))).
      - rewrite (nodes_tent (y_m P) (cell_h P) (ny P) (vy x) Wy j s Hj EY Hs (fun j' => (F (j' * nx P + (i + 1))%nat - F (j' * nx P + i)%nat) / cell_w P)). unfold n00, n10, n01, n11. field. pose proof Wx. lra.
      - intros j' _. f_equal. rewrite <- (nodes_slope (x_m P) (cell_w P) (nx P) (vx x) Wx i t Hi EX Ht (fun i' => F (j' * nx P + i')%nat)). match goal with |- _ = ?A / ?B => change (A / B) with (A * / B) end. rewrite <- fsum_scal_r.
        apply fsum_ext. intros i' _. unfold Rdiv. ring.
    Qed.
    Lemma cell_gy F : fsum (nx P * ny P) (fun k => F k * ghat P x AY k) = ((F n01 - F n00) * (1 - t) + (F n11 - F n10) * t) / cell_h P.
    Proof.
      unfold ghat, node_x, node_y, col, row.
      rewrite (grid_sum F (fun i => tent ((vx x - (x_m P + INR i * cell_w P)) / cell_w P)) (fun j => slope ((vy x - (y_m P + INR j * cell_h P)) / cell_h P) / cell_h P)).
      rewrite (fsum_ext _ _ (fun j' => (F (j' * nx P + i)%nat * (1 - t) + F (j' * nx P + (i + 1))%nat * t) * slope ((vy x - (y_m P + INR j' * cell_h P)) / cell_h P) * / cell_h P)).
      - rewrite fsum_scal_r. rewrite (nodes_slope (y_m P) (cell_h P) (ny P) (vy x) Wy j s Hj EY Hs (fun j' => F (j' * nx P + i)%nat * (1 - t) + F (j' * nx P + (i + 1))%nat * t)). unfold n00, n10, n01, n11. field. pose proof Wy. lra.
      - intros j' _. rewrite (nodes_tent (x_m P) (cell_w P) (nx P) (vx x) Wx i t Hi EX Ht (fun i' => F (j' * nx P + i')%nat)). unfold Rdiv. ring.
    Qed.
  End Cell.
End Affine.
