(** * Additions to the grid commute (exact arithmetic). *)
From Coq Require Import ZArith List Bool Arith Lia Reals Lra Permutation.
From Verif Require Import State NumR LibR LibList Spec SpecOrder Tensor ModelGrid ModelConstit ModelParticle ModelMPList ModelIntegr ModelMain ProofsInOut ProofsOrder.
Import ListNotations.
Local Open Scope R_scope.
Local Existing Instance Num_R.

Lemma points_sync {St B} (run : B -> St -> res St) (f : nat -> phase R -> particle R -> St -> res (particle R * St))
  (part : nat -> solid R -> V3 R -> particle R -> res (particle R * B)) (Inv : St -> Prop) :
  (forall b c s s1 s2, run b s = Ok s1 -> run c s1 = Ok s2 -> exists s1', run c s = Ok s1' /\ run b s1' = Ok s2) ->
  (forall k ph a s, Inv s -> f k ph a s = (p <- part k (ph_sol ph) (ph_sv ph) a ;; s' <- run (snd p) s ;; Ok (fst p, s'))) ->
  (forall b s s', Inv s -> run b s = Ok s' -> Inv s') ->
  forall La Lb, Forall2 reordered La Lb -> forall s La' s', Inv s -> points f La s = Ok (La', s') ->
    Inv s' /\ exists Lb', points f Lb s = Ok (Lb', s') /\ Forall2 reordered La' Lb' /\ alikes La Lb La' Lb'.
Proof.
  intros Hc Hf Hi La Lb RR s La' s' I E. unfold points in *. eapply forM_sync; [|exact RR|exact I|exact E].
  clear - Hc Hf Hi. intros k a b s a' s' R I E. cbv beta in *. pbinds E. injection E as <- <-. destruct R as (S & N & V & P & C). rewrite C in E0.
  assert (EP := each_perm run Hc (f k a) (part k (ph_sol a) (ph_sv a)) Inv (fun p s => Hf k a p s) Hi _ _ _ _ _ P I E0).
  destruct EP as (-> & I' & Eb). split; [exact I'|].
  assert (Eb' : each (length (ph_pts b)) (f k b) (ph_pts b) s = Ok (map (gpart (part k (ph_sol a) (ph_sv a))) (ph_pts b), b1)).
  { rewrite <- Eb. clear - Hf Hi I S V. generalize (ph_pts b). intros l. revert s I. induction l as [|p l IH]; intros s I; [reflexivity|].
    cbn [length each]. rewrite !Hf by exact I. rewrite S, V. destruct (part k (ph_sol b) (ph_sv b) p) as [q|e]; cbn; [|reflexivity]. destruct (run (snd q) s) as [s1|] eqn:E; cbn; [|reflexivity].
    rewrite IH by (eapply Hi; eassumption). reflexivity. }
  exists (b <| ph_pts := map (gpart (part k (ph_sol a) (ph_sv a))) (ph_pts b) |>). rewrite <- N, C, (Permutation_length P), Eb'. cbn [bind]. split; [reflexivity|].
  assert (AL : alike a b (a <| ph_pts := map (gpart (part k (ph_sol a) (ph_sv a))) (ph_pts a) |>) (b <| ph_pts := map (gpart (part k (ph_sol a) (ph_sv a))) (ph_pts b) |>)).
  { split; [reflexivity|]. exists (fun p => Some (gpart (part k (ph_sol a) (ph_sv a)) p)), []. cbn. rewrite !omap_some, !app_nil_r. split; reflexivity. }
  split; [|exact AL]. refine (alike_reordered a b _ _ _ AL _ _ _ _); try assumption; try reflexivity.
  - repeat (split; try assumption).
  - cbn. rewrite map_length. exact C.
Qed.
(** The same for loops that change only the points. *)
Lemma points__sync (f : nat -> phase R -> particle R -> res (particle R)) (g : nat -> solid R -> V3 R -> particle R -> res (particle R)) :
  (forall k ph p, f k ph p = g k (ph_sol ph) (ph_sv ph) p) ->
  forall La Lb, Forall2 reordered La Lb -> forall La', points_ f La = Ok La' ->
    exists Lb', points_ f Lb = Ok Lb' /\ Forall2 reordered La' Lb' /\ alikes La Lb La' Lb'.
Proof.
  intros Hf La Lb RR La' E. unfold points_ in *. pbinds E. injection E as <-.
  destruct (points_sync (fun (_ : unit) (_ : unit) => Ok tt) (fun k ph p (_ : unit) => p <- f k ph p ;; Ok (p, tt)) (fun k S v p => p <- g k S v p ;; Ok (p, tt)) (fun _ => True)) with (La := La) (Lb := Lb) (s := tt) (La' := b) (s' := b0) as (_ & Lb' & EL & R & A); auto.
  - intros _ _ s s1 s2 _ E. exists tt. split; [reflexivity|]. exact E.
  - intros k ph a s _. cbv beta. rewrite Hf. destruct (g k (ph_sol ph) (ph_sv ph) a); reflexivity.
  - exists Lb'. rewrite EL. cbn. auto.
Qed.
(** And for loops that only read the points. *)
Lemma points_r_sync {St B} (run : B -> St -> res St) (f : nat -> phase R -> particle R -> St -> res St)
  (part : nat -> solid R -> V3 R -> particle R -> res B) (Inv : St -> Prop) :
  (forall b c s s1 s2, run b s = Ok s1 -> run c s1 = Ok s2 -> exists s1', run c s = Ok s1' /\ run b s1' = Ok s2) ->
  (forall k ph a s, Inv s -> f k ph a s = (b <- part k (ph_sol ph) (ph_sv ph) a ;; run b s)) ->
  (forall b s s', Inv s -> run b s = Ok s' -> Inv s') ->
  forall La Lb, Forall2 reordered La Lb -> forall s s', Inv s -> points_r f La s = Ok s' -> points_r f Lb s = Ok s'.
Proof.
  intros Hc Hf Hi La Lb RR s s' I E. unfold points_r in *. pbinds E. injection E as <-.
  destruct (points_sync run (fun k ph p s => s <- f k ph p s ;; Ok (p, s)) (fun k S v p => b <- part k S v p ;; Ok (p, b)) Inv) with (La := La) (Lb := Lb) (s := s) (La' := b) (s' := b0) as (_ & Lb' & EL & _ & _); auto.
  - intros k ph a t It. cbv beta. rewrite Hf by exact It. destruct (part k (ph_sol ph) (ph_sv ph) a) as [c|]; cbn; [|reflexivity]. destruct (run c t); reflexivity.
  - rewrite EL. reflexivity.
Qed.

(** ** Elementary additions *)
Inductive rfield := RM | RK | RS (f : sfield).
Inductive vfield := VQ | VI | VE.
Definition rget (f : rfield) (G : grid R) : list R := match f with RM => gm G | RK => g_pkm G | RS f => sget f G end.
Definition rset (f : rfield) (l : list R) (G : grid R) : grid R := match f with RM => G <| gm := l |> | RK => G <| g_pkm := l |> | RS f => sset f l G end.
Definition vget (f : vfield) (G : grid R) : list (V3 R) := match f with VQ => gq G | VI => gfi G | VE => gfe G end.
Definition vset (f : vfield) (l : list (V3 R)) (G : grid R) : grid R := match f with VQ => G <| gq := l |> | VI => G <| gfi := l |> | VE => G <| gfe := l |> end.
Inductive prim := AR (f : rfield) (n : Z) (w : R) | AV (f : vfield) (n : Z) (w : V3 R) | AP (n : Z) (w : list R).
Definition rowop (n : Z) (w : list R) (l : list (list R)) : res (list (list R)) :=
  row <- py_get l n ;; row <- row_add row w ;; py_upd l n (fun _ => row).
Definition radd (n : Z) (w : R) (l : list R) : res (list R) := py_upd l n (fun a => a + w).
Definition vadds (n : Z) (w : V3 R) (l : list (V3 R)) : res (list (V3 R)) := py_upd l n (fun a => vadd a w).
Definition runa (a : prim) (G : grid R) : res (grid R) :=
  match a with
  | AR f n w => l <- radd n w (rget f G) ;; Ok (rset f l G)
  | AV f n w => l <- vadds n w (vget f G) ;; Ok (vset f l G)
  | AP n w => l <- rowop n w (g_phim G) ;; Ok (G <| g_phim := l |>)
  end.
Definition lcomm {A} (h k : list A -> res (list A)) : Prop :=
  forall l l1 l2, h l = Ok l1 -> k l1 = Ok l2 -> exists l1', k l = Ok l1' /\ h l1' = Ok l2.
Lemma upd_len {A} k (f : A -> A) l : length (upd k f l) = length l.
Proof. revert k. induction l as [|a l IH]; intros [|k]; cbn; auto. Qed.
Lemma py_idx_len {A B} (l : list A) (m : list B) i : length l = length m -> py_idx l i = py_idx m i.
Proof. intros E. unfold py_idx. rewrite E. reflexivity. Qed.
Lemma upd_comm {A} (f g : A -> A) : (forall a, f (g a) = g (f a)) -> forall l i j, upd i f (upd j g l) = upd j g (upd i f l).
Proof. intros H. induction l as [|a l IH]; intros [|i] [|j]; cbn; try reflexivity; [rewrite H; reflexivity|]. f_equal. apply IH. Qed.
Lemma py_upd_comm {A} (f g : A -> A) i j : (forall a, f (g a) = g (f a)) -> lcomm (fun l => py_upd l i f) (fun l => py_upd l j g).
Proof.
  intros H l l1 l2 E1 E2. unfold py_upd in *. pbinds E1. injection E1 as <-. pbinds E2. injection E2 as <-.
  rewrite (py_idx_len _ l) in E0 by apply upd_len. rewrite E0. cbn. eexists. split; [reflexivity|]. rewrite (py_idx_len _ l) by apply upd_len. rewrite E. cbn. f_equal. apply upd_comm, H.
Qed.
Lemma vadd_swap (a b c : V3 R) : vadd (vadd a b) c = vadd (vadd a c) b.
Proof. destruct a, b, c. unfold vadd, vmap2. cbn. f_equal; ring. Qed.
Lemma radd_swap (a b c : R) : (a + b)%R + c = a + c + b.
Proof. ring. Qed.
Lemma rowop_spec n w l l' : rowop n w l = Ok l' <->
  exists k, py_idx l n = Ok k /\ (exists r, nth_error l k = Some r /\ length r = length w) /\ l' = upd k (fun r => zipw Rplus r w) l.
Proof.
  unfold rowop, py_get, py_upd, nth_res, row_add. destruct (py_idx l n) as [k|e] eqn:EI; cbn.
  2:{ split; [discriminate|]. intros (k & E & _). discriminate. }
  destruct (nth_error l k) as [r|] eqn:EN; cbn.
  2:{ split; [discriminate|]. intros (k' & E & (r & Er & _) & _). injection E as <-. rewrite EN in Er. discriminate. }
  assert (U : upd k (fun _ => zipw Rplus r w) l = upd k (fun r => zipw Rplus r w) l).
  { clear EI. revert k EN. induction l as [|a l IH]; intros [|k] EN; cbn in *; try discriminate; [injection EN as ->; reflexivity|]. f_equal. auto. }
  destruct (Nat.eqb_spec (length r) (length w)) as [EL|NL]; cbn.
  - split.
    + intros E. injection E as <-. exists k. rewrite <- U. split; [reflexivity|]. split; [exists r; auto|reflexivity].
    + intros (k' & E & _ & ->). injection E as <-. rewrite <- U. reflexivity.
  - split; [discriminate|]. intros (k' & E & (r' & Er & EL) & _). injection E as <-. rewrite EN in Er. injection Er as <-. contradiction.
Qed.
Lemma zipw_swap (a b c : list R) : zipw Rplus (zipw Rplus a b) c = zipw Rplus (zipw Rplus a c) b.
Proof. revert b c. induction a as [|x a IH]; intros [|y b] [|z c]; cbn; try reflexivity. f_equal; [ring|apply IH]. Qed.
Lemma upd_nth_error {A} k (f : A -> A) l j : nth_error (upd k f l) j = if Nat.eqb j k then option_map f (nth_error l j) else nth_error l j.
Proof. revert k j. induction l as [|a l IH]; intros [|k] [|j]; cbn; try reflexivity; [destruct (j =? k); reflexivity|apply IH]. Qed.
Lemma zipw_plus_len (a b : list R) : length a = length b -> length (zipw Rplus a b) = length a.
Proof. revert b. induction a as [|x a IH]; intros [|y b]; cbn; try reflexivity; try discriminate. intros E. f_equal. apply IH. lia. Qed.
Lemma rowop_comm n w m u : lcomm (rowop n w) (rowop m u).
Proof.
  intros l l1 l2 E1 E2. apply rowop_spec in E1. destruct E1 as (i & I & (r & Er & Lr) & ->). apply rowop_spec in E2. destruct E2 as (j & J & (s & Es & Ls) & ->).
  rewrite (py_idx_len _ l) in J by apply upd_len. rewrite upd_nth_error in Es.
  exists (upd j (fun r => zipw Rplus r u) l). split.
  - apply rowop_spec. exists j. split; [exact J|]. split; [|reflexivity]. destruct (Nat.eqb_spec j i) as [->|N].
    + rewrite Er in Es. cbn in Es. injection Es as <-. exists r. split; [exact Er|]. rewrite zipw_plus_len in Ls by exact Lr. exact Ls.
    + exists s. auto.
  - apply rowop_spec. exists i. rewrite (py_idx_len _ l) by apply upd_len. split; [exact I|]. split.
    + rewrite upd_nth_error. destruct (Nat.eqb_spec i j) as [->|N]; [|exists r; auto]. rewrite Er. cbn. eexists. split; [reflexivity|].
      rewrite Nat.eqb_refl, Er in Es. cbn in Es. injection Es as <-. rewrite zipw_plus_len in Ls by exact Lr. rewrite zipw_plus_len; congruence.
    + apply upd_comm. intros a. apply zipw_swap.
Qed.
(** One field, two additions; two fields. *)
Lemma same_comm {A} (get : grid R -> list A) (set : list A -> grid R -> grid R) h k : lcomm h k ->
  (forall l G, get (set l G) = l) -> (forall l m G, set l (set m G) = set l G) ->
  forall G G1 G2, (l <- h (get G) ;; Ok (set l G)) = Ok G1 -> (l <- k (get G1) ;; Ok (set l G1)) = Ok G2 ->
  exists G1', (l <- k (get G) ;; Ok (set l G)) = Ok G1' /\ (l <- h (get G1') ;; Ok (set l G1')) = Ok G2.
Proof.
  intros HC GS SS G G1 G2 E1 E2. pbinds E1. injection E1 as <-. rewrite GS in E2. pbinds E2. injection E2 as <-.
  destruct (HC _ _ _ E E0) as (l & K & H). rewrite K. cbn. eexists. split; [reflexivity|]. rewrite GS, H. cbn. rewrite !SS. reflexivity.
Qed.
Lemma diff_comm {A B} (get : grid R -> list A) (set : list A -> grid R -> grid R) (get' : grid R -> list B) (set' : list B -> grid R -> grid R) h k :
  (forall l G, get (set' l G) = get G) -> (forall l G, get' (set l G) = get' G) -> (forall l m G, set l (set' m G) = set' m (set l G)) ->
  forall G G1 G2, (l <- h (get G) ;; Ok (set l G)) = Ok G1 -> (l <- k (get' G1) ;; Ok (set' l G1)) = Ok G2 ->
  exists G1', (l <- k (get' G) ;; Ok (set' l G)) = Ok G1' /\ (l <- h (get G1') ;; Ok (set l G1')) = Ok G2.
Proof.
  intros G1S G2S SS G G1 G2 E1 E2. pbinds E1. injection E1 as <-. rewrite G2S in E2. pbinds E2. injection E2 as <-.
  rewrite E0. cbn. eexists. split; [reflexivity|]. rewrite G1S, E. cbn. rewrite SS. reflexivity.
Qed.
Lemma rfield_dec (f g : rfield) : {f = g} + {f <> g}.
Proof. repeat decide equality. Qed.
Lemma vfield_dec (f g : vfield) : {f = g} + {f <> g}.
Proof. decide equality. Qed.
Definition setp (l : list (list R)) (G : grid R) : grid R := G <| g_phim := l |>.
Lemma runa_comm b c G G1 G2 : runa b G = Ok G1 -> runa c G1 = Ok G2 -> exists G1', runa c G = Ok G1' /\ runa b G1' = Ok G2.
Proof.
  destruct b as [f n w|f n w|n w], c as [g m u|g m u|m u]; unfold runa.
  - destruct (rfield_dec f g) as [->|N].
    + apply (same_comm (rget g) (rset g) (radd n w) (radd m u)); [apply py_upd_comm; intros; apply radd_swap|destruct g as [| |[]]; reflexivity..].
    + apply (diff_comm (rget f) (rset f) (rget g) (rset g) (radd n w) (radd m u)); (destruct f as [| |[]], g as [| |[]]; first [reflexivity|contradiction]).
  - apply (diff_comm (rget f) (rset f) (vget g) (vset g) (radd n w) (vadds m u)); (destruct f as [| |[]], g; reflexivity).
  - apply (diff_comm (rget f) (rset f) g_phim setp (radd n w) (rowop m u)); (destruct f as [| |[]]; reflexivity).
  - apply (diff_comm (vget f) (vset f) (rget g) (rset g) (vadds n w) (radd m u)); (destruct g as [| |[]], f; reflexivity).
  - destruct (vfield_dec f g) as [->|N].
    + apply (same_comm (vget g) (vset g) (vadds n w) (vadds m u)); [apply py_upd_comm; intros; apply vadd_swap|destruct g; reflexivity..].
    + apply (diff_comm (vget f) (vset f) (vget g) (vset g) (vadds n w) (vadds m u)); (destruct f, g; first [reflexivity|contradiction]).
  - apply (diff_comm (vget f) (vset f) g_phim setp (vadds n w) (rowop m u)); (destruct f; reflexivity).
  - apply (diff_comm g_phim setp (rget g) (rset g) (rowop n w) (radd m u)); (destruct g as [| |[]]; reflexivity).
  - apply (diff_comm g_phim setp (vget g) (vset g) (rowop n w) (vadds m u)); (destruct g; reflexivity).
  - apply (same_comm g_phim setp (rowop n w) (rowop m u)); [apply rowop_comm|reflexivity..].
Qed.
