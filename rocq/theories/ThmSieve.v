(** * Segregation and the total mass of every size class: C111. *)
From Coq Require Import ZArith Reals List Bool Arith Lra Lia.
From RecordUpdate Require Import RecordUpdate.
From Verif Require Import State NumR Spec SpecLaws SpecStep LibList LibR ModelGrid ModelConstit ModelParticle ModelMPList
  ModelIntegr ModelMain ProofsGrid ProofsMap ProofsP2G ProofsWalls ProofsLaws ProofsInOut ProofsHist Concrete
  ThmMapping ThmWalls ThmLaws ThmInOut ThmHist ProofsStep ProofsPoints ThmStep ThmSeg ThmFrac ThmSift ThmLocal ThmGrade.
Import ListNotations.
Local Open Scope R_scope.

(** The total mass of size class [i]. *)
Definition class_mass (i : nat) (L : list (phase R)) : R := psum L (fun _ p => pm p * nth i (pphi p) 0).
(** What the grid adds to it: the increments of the fractions at the nodes that points read, by the mass of the nodes. *)
Definition gained (i : nat) (P : params R) (G : grid R) : R :=
  fsum (nodes (pG P)) (fun k => nth k (gm G) 0 * (if Rlt_dec (p_Mtol P) (nth k (gm G) 0) then nth i (nth k (g_dphi G) []) 0 else 0)).
(** No material sheds mass. *)
Definition lasting (L : list (phase R)) : Prop := forall ph, In ph L -> s_law (ph_sol ph) <> ElasticTime.

Lemma increment_len P rho (G G' : grid R) : calculate_phi_increment P rho G = Ok G' ->
  length (g_dphi G') = nodes (pG P) /\ gm G' = gm G /\ f_eta G' = f_eta G.
Proof.
  unfold calculate_phi_increment, KT0, KT1, Diffusion. intros E. pbinds E. injection E as <-.
  repeat match goal with X : bind _ _ = Ok _ |- _ => let a := fresh in destruct (bind_ok _ _ _ X) as (a & _ & ?Y); clear X; cbv beta in * end.
  match goal with X : (if ?c then _ else _) = Ok _ |- _ => destruct c; [discriminate X|] end.
  repeat match goal with X : Ok _ = Ok _ |- _ => injection X as <- end.
  repeat split. cbn [g_dphi set]. unfold add_rows. rewrite map_length, !zipw_length, !map_length, seq_length. lia.
Qed.
Lemma segregate_inc fill P L (G : grid R) L' G' : proper (pG P) -> p_norm P = false -> all_live L (fun _ p => located (pG P) p) ->
  length (gm G) = nodes (pG P) -> segregate fill P L G = Ok (L', G') ->
  Lrel (fun _ p p' => incremented P G' p (pphi p')) L L'.
Proof.
  intros HP NM HA LM E. unfold segregate in E. pbinds E. injection E as <- <-.
  match goal with X : calculate_phi_increment _ _ _ = Ok ?g |- _ => destruct (increment_len _ _ _ _ X) as (D1 & D2 & _); rename g into G1 end.
  match goal with X : move_grainsize _ _ _ = Ok _ |- _ => rename X into MV end.
  match goal with X : cyc_fields _ _ _ = Ok _ |- _ => unfold cyc_fields in X; cbn [foldM] in X; pbinds X; injection X as X; rename X into CF end.
  match goal with X : (_ <- cyc _ _ _ ;; _) = Ok _ |- _ => pbinds X; injection X as X end.
  pose proof (p_C41_plain P G1 L a2 HP NM) as I. rewrite D2 in I. specialize (I LM D1 HA MV).
  subst. exact I.
Qed.

Lemma Rsum_cons a l : Rsum (a :: l) = a + Rsum l.
Proof. reflexivity. Qed.
Lemma moved_class i P (G : grid R) L L' : Forall2 (phase_moved P G) L L' -> class_mass i L' = class_mass i L.
Proof.
  unfold class_mass, psum. induction 1 as [|ph ph' L L' (A1 & A2 & A3 & A4 & _) H IH]; [reflexivity|]. cbn [map]. rewrite !Rsum_cons, IH. f_equal.
  clear - A4. induction A4 as [|p p' l l' X A4 IH]; [reflexivity|]. cbn [map]. rewrite !Rsum_cons, IH. f_equal.
  destruct (is_rigid (s_law (ph_sol ph))).
  - destruct X as (w & _ & ->). reflexivity.
  - destruct X as (Y1 & _). rewrite Y1. reflexivity.
Qed.


Lemma rows_nth (a b : list (list R)) n m k i : length a = n -> length b = n -> (forall k, (k < n)%nat -> length (nth k a []) = m) ->
  (forall k, (k < n)%nat -> length (nth k b []) = m) -> (k < n)%nat -> (i < m)%nat ->
  nth i (nth k (add_rows a b) []) 0 = nth i (nth k a []) 0 + nth i (nth k b []) 0 /\ length (add_rows a b) = n /\ length (nth k (add_rows a b) []) = m.
Proof.
  intros A1 B1 A2 B2 Hk Hi. unfold add_rows. rewrite (zipw_nth _ a b k [] [] []) by lia. split; [|split].
  - rewrite (zipw_nth _ _ _ i 0 0 0) by (rewrite ?A2, ?B2 by lia; lia). reflexivity.
  - rewrite zipw_length, A1, B1. lia.
  - rewrite zipw_length, A2, B2 by lia. lia.
Qed.
Lemma nth_table {A} (f : nat -> A) n k d : (k < n)%nat -> nth k (map f (seq 0 n)) d = f k.
Proof. intros H. rewrite (nth_indep _ d (f 0%nat)) by (rewrite map_length, seq_length; exact H). rewrite map_nth, seq_nth by exact H. reflexivity. Qed.

(** Without diffusion the increments of a class sum to zero over the nodes. *)
Lemma increment_sum P rho (G G' : grid R) i : proper (pG P) -> p_l P = Some 0 -> calculate_phi_increment P rho G = Ok G' -> (i < ns (pG P))%nat ->
  fsum (nodes (pG P)) (fun k => nth i (nth k (g_dphi G') []) 0) = 0.
Proof.
  intros HP Hl E Hi. unfold calculate_phi_increment in E. pbinds E. injection E as <-. cbn [g_dphi set].
  assert (HP' : (1 <= nx (pG P))%nat /\ (1 <= ny (pG P))%nat) by (destruct HP as (A & B & _); lia). destruct HP' as [X1 X2].
  match goal with X : KT0 _ _ = Ok ?x |- _ => rename X into EA; rename x into A end.
  match goal with X : KT1 _ _ = Ok ?x |- _ => rename X into EB; rename x into B end.
  match goal with X : Diffusion _ _ _ = Ok ?x |- _ => rename X into ED; rename x into D end.
  assert (LA : length A = nodes (pG P) /\ forall k, (k < nodes (pG P))%nat -> length (nth k A []) = ns (pG P)).
  { unfold KT0 in EA. pbinds EA. injection EA as <-. split; [rewrite map_length, seq_length; reflexivity|].
    intros k Hk. rewrite nth_table by exact Hk. cbv zeta. rewrite map_length, seq_length. reflexivity. }
  assert (LB : length B = nodes (pG P) /\ forall k, (k < nodes (pG P))%nat -> length (nth k B []) = ns (pG P)).
  { unfold KT1 in EB. pbinds EB. injection EB as <-. split; [rewrite map_length, seq_length; reflexivity|].
    intros k Hk. rewrite nth_table by exact Hk. cbv zeta. rewrite map_length, seq_length. reflexivity. }
  assert (LD : length D = nodes (pG P) /\ forall k, (k < nodes (pG P))%nat -> length (nth k D []) = ns (pG P) /\ nth i (nth k D []) 0 = 0).
  { unfold Diffusion in ED. rewrite Hl in ED. cbn [attr bind] in ED. pbinds ED.
    match type of ED with (if ?c then _ else _) = Ok _ => destruct c; [discriminate ED|] end. injection ED as <-.
    split; [rewrite map_length, seq_length; reflexivity|].
    intros k Hk. rewrite nth_table by exact Hk. cbv zeta. split; [rewrite map_length, seq_length; reflexivity|].
    rewrite nth_table by exact Hi.
    assert (Z : forall m, diffusivity 0 rho G m = 0) by (intros m; unfold diffusivity; unR; unfold Rdiv; ring).
    assert (MZ : forall (h : nat -> R) n, (forall m, h m = 0) -> map h (seq 0 n) = repeat 0 n).
    { intros h n H. rewrite (map_ext h (fun _ => 0)) by exact H. generalize 0%nat at 1. induction n as [|n IH]; intros m; cbn; [reflexivity|]. rewrite IH. reflexivity. }
    match goal with |- context [map ?h (seq 0 (nodes (pG P)))] => match h with context [Rpow] => assert (ZD : forall m, h m = 0) by (intros m; unfold Rdiv; ring) end end.
    rewrite (MZ _ _ ZD). clear ZD.
    assert (G1 : forall (f : nat -> R) h n m, (forall j, f j = 0) -> grad1 f h n m = 0).
    { intros f h n m H. unfold grad1. cbv zeta. repeat match goal with |- context [if ?c then _ else _] => destruct c end; rewrite ?H; unR; unfold Rdiv; ring. }
    assert (GX : forall d m, gradx (nx (pG P)) (repeat 0 (nodes (pG P))) d m = 0).
    { intros d m. apply G1. intros j. apply nth_repeat_same. }
    assert (GY : forall d m, grady (nx (pG P)) (ny (pG P)) (repeat 0 (nodes (pG P))) d m = 0).
    { intros d m. apply G1. intros j. apply nth_repeat_same. }
    rewrite !MZ by (intros m; rewrite ?GX, ?GY; unR; ring). rewrite GX, GY. unR. ring. }
  destruct LA as [LA LA2], LB as [LB LB2], LD as [LD LD2].
  rewrite (fsum_ext _ _ (fun k => nth i (nth k A []) 0 + nth i (nth k B []) 0)).
  2: { intros k Hk. change [] with (map (@nan0 R Num_R) []) at 1. rewrite map_nth. 
       assert (MI : map (@nan0 R Num_R) (nth k (add_rows (add_rows A B) D) []) = nth k (add_rows (add_rows A B) D) []) by apply map_id. rewrite MI.
       assert (LAB : length (add_rows A B) = nodes (pG P)) by (apply (rows_nth A B _ (ns (pG P)) k i); auto).
       assert (LAB2 : forall q, (q < nodes (pG P))%nat -> length (nth q (add_rows A B) []) = ns (pG P)) by (intros q Hq; apply (rows_nth A B (nodes (pG P)) (ns (pG P)) q i); auto).
       rewrite (proj1 (rows_nth (add_rows A B) D _ (ns (pG P)) k i LAB LD LAB2 (fun q Hq => proj1 (LD2 q Hq)) Hk Hi)).
       rewrite (proj1 (rows_nth A B _ (ns (pG P)) k i LA LB LA2 LB2 Hk Hi)). rewrite (proj2 (LD2 k Hk)). ring. }
  rewrite fsum_plus. unfold nodes. rewrite Nat.mul_comm.
  rewrite (fsum_rows (nx (pG P)) (ny (pG P)) (fun k => nth i (nth k A []) 0)), (fsum_rows (nx (pG P)) (ny (pG P)) (fun k => nth i (nth k B []) 0)).
  rewrite (fsum_zero _ (fun j => fsum (nx (pG P)) (fun i0 => nth i (nth (j * nx (pG P) + i0) A []) 0))) by (intros j Hj; apply (p_C38_rows P G A EA X1 j i Hj Hi)).
  rewrite fsum_swap. rewrite (fsum_zero _ (fun j => fsum (ny (pG P)) (fun i0 => nth i (nth (i0 * nx (pG P) + j) B []) 0))) by (intros j Hj; apply (p_C38_columns P G B EB X2 j i Hj Hi)).
  ring.
Qed.

(** A step that segregates changes the total mass of a class by what the grid adds, with the masses of the nodes as
    weights. *)
Lemma p_C111_balance : forall uf fill (s s' : state R) i, proper (pG (sP s)) -> grid_ok (pG (sP s)) (sG s) ->
  all_live (sL s) (fun _ p => in_dom (pG (sP s)) (px p)) -> tight (sP s) -> lasting (sL s) ->
  p_seg (sP s) = true -> p_norm (sP s) = false -> time_march uf fill s = Ok s' ->
  class_mass i (sL s') = class_mass i (sL s) + gained i (sP s) (sG s').
Proof.
  intros uf fill s s' i HP HG HD HS HL Hs HN E. pose proof HS as (Hc & O1 & O2 & I1 & I2).
  destruct (march_seg uf fill s s' HP HG HD Hc E) as
    (S1 & L1 & L3 & L4 & L4s & L5 & G1 & G3 & G4 & G5 & G6 & HS1 & E1 & R1 & R3 & E2 & F1 & E3 & R4 & F3 & Lo & E4 & LF & E5 & Z4 & Z5 & E6 & EP & ESG & GD & SN & PM & EI).
  set (P := sP s <| p_loads := uf (sP s) |>) in *. set (Pg := pG (sP s)) in *.
  assert (IO : inout P L5 = Ok L5).
  { unfold inout. change (pB P) with (pB (sP s)). rewrite O1, O2, I1, I2, Hc. reflexivity. }
  rewrite IO in EI. injection EI as EI. rewrite <- EI. rewrite (moved_class i P G6 L4s L5 PM).
  change (p_seg P) with (p_seg (sP s)) in ESG. rewrite Hs in ESG.
  destruct (force_loop_spec P L4 G3 G4 LF E4) as (F4 & _).
  pose proof (BCs_frame _ _ _ _ E5) as F5. destruct (um_shape P G5 G6 E6) as [F6 _].
  unfold vis_frame in F3. unfold frame_f in F4. unfold force_frame in F5. destruct SN as (N1 & _).
  assert (EM6 : gm G6 = gm G1). { rewrite F6. cbn. rewrite F5. cbn. rewrite F4. cbn. rewrite F3. reflexivity. }
  destruct (p2g_all_mass P L3 (wipe (sP s) (sG s)) G1 (wipe_lens (sP s) (sG s)) E2) as (Lm & _ & M).
  assert (INC : Lrel (fun _ p p' => incremented P (sG s') p (pphi p')) L4 L4s).
  { apply (segregate_inc fill P L4 (calculate_gammadot fill P G6) L4s (sG s')); auto. change (length (gm G6) = nodes (pG P)). rewrite EM6. exact Lm. }
  (* the points before and after the stress update *)
  assert (C1 : class_mass i (sL s) = class_mass i L1).
  { apply (Lrel_psum _ _ _ _ _ R1). cbv beta. intros ph p ph' p' _ _ _ _ _ [b ->]. reflexivity. }
  assert (C3 : class_mass i L1 = class_mass i L3).
  { apply (Lrel_psum _ _ _ _ _ R3). cbv beta. intros ph p ph' p' _ _ _ _ _ [_ ->]. reflexivity. }
  assert (SO3 : map ph_sol L3 = map ph_sol (sL s)) by (rewrite (Lrel_sol _ _ _ R3); apply (Lrel_sol _ _ _ R1)).
  assert (LA : lasting L3) by exact (sol_in _ _ (fun So => s_law So <> ElasticTime) SO3 HL).
  assert (ST : forall ph p p', In ph L3 -> strained p p' /\ (s_law (ph_sol ph) <> ElasticTime -> pm p' = pm p) ->
    pm p' = pm p /\ pphi p' = pphi p /\ px p' = px p).
  { intros ph p p' A [X Y]. split; [apply Y, LA, A|]. unfold strained, law_frame in X. rewrite X. split; reflexivity. }
  assert (C4 : class_mass i L3 = class_mass i L4).
  { apply (Lrel_psum _ _ _ _ _ R4). cbv beta. intros ph p ph' p' A _ _ _ _ X. destruct (ST ph p p' A X) as (-> & -> & _). reflexivity. }
  assert (MS : forall k, nth k (gm (sG s')) 0 = psum L4 (fun _ p => pm p * hat Pg (px p) k)).
  { intros k. rewrite N1. change (nth k (gm G6) 0 = psum L4 (fun _ p => pm p * hat Pg (px p) k)). rewrite EM6, M, wipe_m, Rplus_0_l. unfold mass_at.
    apply (Lrel_psum _ _ _ _ _ R4). cbv beta. intros ph p ph' p' A C _ _ _ X. destruct (ST ph p p' A X) as (-> & _ & ->). f_equal.
    apply wt_hat; [exact HP|].
    assert (Lo3 : all_live L3 (fun _ p => located Pg p)).
    { apply (Lrel_all_live _ _ _ (fun _ _ => True) _ R3); [|intros ? ? ? ?; exact I]. cbv beta. intros ? ? ? ? _ _ _ _ _ [D ->] _. apply locate_located; exact D. }
    exact (Lo3 ph p A C). }
  (* the increments *)
  set (g := fun k => if Rlt_dec (p_Mtol P) (nth k (gm (sG s')) 0) then nth i (nth k (g_dphi (sG s')) []) 0 else 0).
  assert (PH : Lrel (fun _ p p' => pm p' = pm p /\ nth i (pphi p') 0 = nth i (pphi p) 0 + fsum (nodes Pg) (fun k => hat Pg (px p) k * g k)) L4 L4s).
  { clear - INC GD. revert INC GD. unfold Lrel. generalize L4 L4s. intros La Lb INC. induction INC as [|ph ph' La Lb (A1 & A2 & A3 & A4 & A5) INC IH]; intros GD; [constructor|].
    inversion GD as [|? ? ? ? (B1 & B2 & B3 & B4 & B5) GD']; subst. constructor; [|exact (IH GD')]. repeat (split; [assumption|]). split; [|assumption].
    clear - A4 B4. induction A4 as [|p p' l l' X A4 IH]; [constructor|]. inversion B4 as [|? ? ? ? Y B4']; subst. constructor; [|exact (IH B4')].
    split; [destruct Y as [Y _]; rewrite Y; reflexivity|]. exact (proj2 X i). }
  rewrite C1, C3, C4. unfold class_mass at 1.
  assert (S1' : psum L4s (fun _ p => pm p * nth i (pphi p) 0) =
                psum L4 (fun _ p => pm p * nth i (pphi p) 0 + pm p * fsum (nodes Pg) (fun k => hat Pg (px p) k * g k))).
  { symmetry. apply (Lrel_psum _ _ _ _ _ PH). cbv beta. intros ph p ph' p' _ _ _ _ _ (-> & ->). ring. }
  rewrite S1', psum_plus. unfold class_mass. f_equal. unfold gained. fold g.
  rewrite (psum_ext L4 _ (fun _ p => fsum (nodes Pg) (fun k => pm p * hat Pg (px p) k * g k))).
  2: { intros ph p _ _. rewrite <- fsum_scal. apply fsum_ext. intros. ring. }
  rewrite <- (psum_swap (nodes Pg) L4 (fun k _ p => pm p * hat Pg (px p) k * g k)). apply fsum_ext. intros k Hk. rewrite psum_scal_r. unfold g. rewrite <- MS. reflexivity.
Qed.

Lemma segregate_sum fill P L (G : grid R) L' G' i : proper (pG P) -> p_l P = Some 0 -> (i < ns (pG P))%nat ->
  segregate fill P L G = Ok (L', G') -> fsum (nodes (pG P)) (fun k => nth i (nth k (g_dphi G') []) 0) = 0.
Proof.
  intros HP Hl Hi E. unfold segregate in E. pbinds E. injection E as <- <-.
  match goal with X : calculate_phi_increment _ _ _ = Ok ?g |- _ => pose proof (increment_sum _ _ _ _ i HP Hl X Hi) as D; rename g into G1 end.
  match goal with X : cyc_fields _ _ _ = Ok _ |- _ => unfold cyc_fields in X; cbn [foldM] in X; pbinds X; injection X as X; rename X into CF end.
  match goal with X : (_ <- cyc _ _ _ ;; _) = Ok _ |- _ => pbinds X; injection X as X end.
  subst. exact D.
Qed.
Lemma seg_mass uf fill (s s' : state R) : proper (pG (sP s)) -> grid_ok (pG (sP s)) (sG s) ->
  all_live (sL s) (fun _ p => in_dom (pG (sP s)) (px p)) -> tight (sP s) -> time_march uf fill s = Ok s' ->
  forall k, nth k (gm (sG s')) 0 = psum (sL s) (fun _ p => pm p * hat (pG (sP s)) (px p) k).
Proof.
  intros HP HG HD HS E. pose proof HS as (Hc & O1 & O2 & I1 & I2).
  destruct (march_seg uf fill s s' HP HG HD Hc E) as
    (S1 & L1 & L3 & L4 & L4s & L5 & G1 & G3 & G4 & G5 & G6 & HS1 & E1 & R1 & R3 & E2 & F1 & E3 & R4 & F3 & Lo & E4 & LF & E5 & Z4 & Z5 & E6 & EP & ESG & GD & SN & PM & EI).
  set (P := sP s <| p_loads := uf (sP s) |>) in *. intros k.
  destruct (force_loop_spec P L4 G3 G4 LF E4) as (F4 & _).
  pose proof (BCs_frame _ _ _ _ E5) as F5. destruct (um_shape P G5 G6 E6) as [F6 _].
  unfold vis_frame in F3. unfold frame_f in F4. unfold force_frame in F5. destruct SN as (N1 & _).
  assert (EM6 : gm G6 = gm G1). { rewrite F6. cbn. rewrite F5. cbn. rewrite F4. cbn. rewrite F3. reflexivity. }
  rewrite N1. rewrite EM6. destruct (p2g_all_mass P L3 (wipe (sP s) (sG s)) G1 (wipe_lens (sP s) (sG s)) E2) as (_ & _ & M).
  rewrite M, wipe_m, Rplus_0_l. unfold mass_at. symmetry.
  assert (RC : Lrel (fun _ p p' => px p' = px p /\ pm p' = pm p /\ located (pG (sP s)) p') (sL s) L3).
  { eapply Lrel_trans; [exact R1|exact R3|]. cbv beta. intros ph ph' p p1 p2 _ _ _ _ [b ->] [D ->].
    split; [reflexivity|]. split; [reflexivity|]. apply locate_located. exact D. }
  eapply Lrel_psum; [exact RC|]. cbv beta. intros ph p ph' p' _ _ _ _ _ (X & Y & Z).
  rewrite (wt_hat P p' k HP Z), X, Y. reflexivity.
Qed.

(** The claim holds if the nodes all weigh the same and nothing diffuses: the total mass of every class stays. *)
Lemma p_C111_even : forall uf fill (s s' : state R) i m, proper (pG (sP s)) -> grid_ok (pG (sP s)) (sG s) ->
  all_live (sL s) (fun _ p => in_dom (pG (sP s)) (px p)) -> tight (sP s) -> lasting (sL s) ->
  p_seg (sP s) = true -> p_norm (sP s) = false -> p_l (sP s) = Some 0 -> (i < ns (pG (sP s)))%nat ->
  (forall k, (k < nodes (pG (sP s)))%nat -> psum (sL s) (fun _ p => pm p * hat (pG (sP s)) (px p) k) = m) -> p_Mtol (sP s) < m ->
  time_march uf fill s = Ok s' -> class_mass i (sL s') = class_mass i (sL s).
Proof.
  intros uf fill s s' i m HP HG HD HS HL Hs HN Hl Hi HM Hm E.
  rewrite (p_C111_balance uf fill s s' i HP HG HD HS HL Hs HN E). unfold gained.
  rewrite (fsum_ext _ _ (fun k => m * nth i (nth k (g_dphi (sG s')) []) 0)).
  2: { intros k Hk. rewrite (seg_mass uf fill s s' HP HG HD HS E k), (HM k Hk). destruct (Rlt_dec (p_Mtol (sP s)) m); [reflexivity|contradiction]. }
  rewrite fsum_scal.
  assert (Z : fsum (nodes (pG (sP s))) (fun k => nth i (nth k (g_dphi (sG s')) []) 0) = 0).
  { destruct HS as (Hc & _). destruct (march_seg uf fill s s' HP HG HD Hc E) as
      (S1 & L1 & L3 & L4 & L4s & L5 & G1 & G3 & G4 & G5 & G6 & HS1 & E1 & R1 & R3 & E2 & F1 & E3 & R4 & F3 & Lo & E4 & LF & E5 & Z4 & Z5 & E6 & EP & ESG & _).
    set (P := sP s <| p_loads := uf (sP s) |>) in *. change (p_seg P) with (p_seg (sP s)) in ESG. rewrite Hs in ESG.
    exact (segregate_sum fill P _ _ _ _ i HP Hl Hi ESG). }
  rewrite Z. ring.
Qed.

(** Two points side by side in a grid of one cell, of different mixtures. *)
Definition cell_gridp : gridp R := mkGridp 0 1 0 1 2 2 (Some 1) (Some 1) 1 2 [1; 2] (Some 1) None.
Definition cell_params : params R := ex_params ex_bounds <| pG := cell_gridp |> <| p_seg := true |> <| p_c := Some 1 |> <| p_l := Some 0 |>.
Definition cell_state (G : grid R) : state R :=
  mkState cell_params G [mkPhase (ex_solid Elastic) 2 v0
    [ex_particle (1/4) (1/2) (mkV3 0 1 0) (mscale 2 eye) <| pphi := [1/4; 3/4] |>; ex_particle (3/4) (1/2) (mkV3 0 (-1) 0) (mscale 2 eye)]].
Lemma cell_proper : proper cell_gridp.
Proof. repeat split; cbn; lia || lra. Qed.
(** Two points of different mixtures, side by side, in a sheared cell. *)
Example x_C111_even : forall uf fill, exists (s s' : state R), proper (pG (sP s)) /\ grid_ok (pG (sP s)) (sG s) /\
  all_live (sL s) (fun _ p => in_dom (pG (sP s)) (px p)) /\ tight (sP s) /\ lasting (sL s) /\
  p_seg (sP s) = true /\ p_norm (sP s) = false /\ p_l (sP s) = Some 0 /\ (1 < ns (pG (sP s)))%nat /\
  (forall k, (k < nodes (pG (sP s)))%nat -> psum (sL s) (fun _ p => pm p * hat (pG (sP s)) (px p) k) = 1) /\ p_Mtol (sP s) < 1 /\
  time_march uf fill s = Ok s' /\ class_mass 0 (sL s) = 3/2 /\ class_mass 0 (sL s') = 3/2.
Proof.
  intros uf fill. destruct (grid_init_ok cell_gridp ex_bounds cell_proper) as (G & EG & OK).
  set (s := cell_state G).
  assert (D : all_live (sL s) (fun _ p => in_dom (pG (sP s)) (px p))).
  { intros ph p [<-|[]] [<-|[<-|[]]]; repeat split; cbn; lra. }
  assert (HL : lasting (sL s)) by (intros ph [<-|[]]; discriminate).
  assert (HM : forall k, (k < nodes (pG (sP s)))%nat -> psum (sL s) (fun _ p => pm p * hat (pG (sP s)) (px p) k) = 1).
  { intros k Hk. cbn in Hk. unfold psum. cbn [map sL s cell_state live ph_n ph_pts firstn]. rewrite ?Rsum_cons. cbn [map]. rewrite ?Rsum_cons. unfold Rsum. cbn [fold_right].
    unfold hat, node_x, node_y, cell_w, cell_h, tent, col, row.
    destruct k as [|[|[|[|k]]]]; [| | | |lia]; cbn -[Rabs Rmax]; unR;
    repeat match goal with |- context [Rabs ?x] => first [rewrite (Rabs_right x) by lra|rewrite (Rabs_left x) by lra] end;
    repeat match goal with |- context [Rmax ?x ?y] => rewrite (Rmax_right x y) by lra end; lra. }
  assert (HR : ready_sift s).
  { constructor; try discriminate; try exact cell_proper; try exact OK.
    - intros ph [<-|[]]. reflexivity.
    - intros ph p A C. split; [exact (D ph p A C)|discriminate].
    - exists (ex_solid Elastic). split; [reflexivity|]. intros ph p [<-|[]] _. left. unfold equipped, has. cbn. repeat split; discriminate.
    - intros ph [<-|[]]. discriminate.
    - left. reflexivity.
    - intros _. split; [discriminate|]. split; [discriminate|]. split; [discriminate|]. split; [discriminate|].
      split; [intros S0 X; injection X as <-; discriminate|]. split; [cbn; lia|]. intros ph p [<-|[]] [<-|[<-|[]]]; reflexivity.
    - split; reflexivity. }
  destruct (p_C58_step_sift uf fill s HR) as [s' E].
  assert (T : tight (sP s)) by (repeat split; reflexivity).
  assert (M : p_Mtol (sP s) < 1) by (cbn; unfold lit; unR; lra).
  exists s, s'. split; [exact cell_proper|]. split; [exact OK|]. split; [exact D|]. split; [exact T|]. split; [exact HL|].
  do 3 (split; [reflexivity|]). split; [cbn; lia|]. split; [exact HM|]. split; [exact M|]. split; [exact E|].
  assert (C0 : class_mass 0 (sL s) = 3/2).
  { unfold class_mass, psum. cbn [map sL s cell_state live ph_n ph_pts firstn]. rewrite ?Rsum_cons. cbn [map]. rewrite ?Rsum_cons. unfold Rsum. cbn. unR. lra. }
  split; [exact C0|]. rewrite (p_C111_even uf fill s s' 0 1 cell_proper OK D T HL eq_refl eq_refl eq_refl) by (assumption || (cbn; lia)). exact C0.
Qed.
