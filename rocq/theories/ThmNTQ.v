(** * The NT scheme: concrete runs *)
From Coq Require Import ZArith List Bool Arith Lia Reals Lra QArith.
From Verif Require Import State NumQ ModelGrid ModelConstit ModelParticle ModelMPList ModelIntegr ModelNT Concrete ThmSegQ.
Import ListNotations.
Local Open Scope Q_scope.

Definition nline (l : list (list Q)) (i : nat) : list Q := nth i l [].
Definition nt_phi : nat -> list Q := nline [[0; 1]; [1#2; 1#2]; [1; 0]; [1#4; 3#4]; [0; 1]].
Definition nt_tri : nat -> list Q := nline [[0; 0; 1]; [1#2; 0; 1#2]; [1; 0; 0]; [1#4; 1#2; 1#4]; [0; 1#3; 2#3]].
Definition ends (i : nat) : bool := Nat.eqb i 0 || Nat.eqb i 4.
Definition Qtot (n : nat) (f : nat -> Q) : Q := lsum (map f (seq 0 n)).

(** Between closed ends something moves, and the class is conserved. *)
Example x_C65_line : let d := nt_line (T := Q) (1#10) 1 1 [1; 2] 5 nt_phi (fun _ => 1) ends 0 in
  ~ d 0%nat == 0 /\ ~ d 2%nat == 0 /\ Qtot 5 d == 0.
Proof. split; [|split]; [intros E; vm_compute in E; discriminate|intros E; vm_compute in E; discriminate|vm_compute; reflexivity]. Qed.
(** Through open ends it is not. *)
Lemma p_C65_open_refuted : exists (dt dx c : Q) ss n phi g, 0 < dt /\ 0 < dx /\ Forall (fun s => 0 < s) ss /\
  (forall i, (i < n)%nat -> valid_row (phi i)) /\ ~ Qtot n (nt_line dt dx c ss n phi g (fun _ => false) 0) == 0.
Proof.
  exists (1#10), 1, 1, [1; 2], 5%nat, (nline [[1#2; 1#2]; [1#2; 1#2]; [1; 0]; [1#4; 3#4]; [0; 1]]), (fun _ => 1).
  split; [reflexivity|]. split; [reflexivity|]. split; [repeat (apply Forall_cons; [reflexivity|]); apply Forall_nil|]. split.
  - intros i Hi. do 5 (destruct i as [|i]; [split; [repeat (apply Forall_cons; [split; vm_compute; discriminate|]); apply Forall_nil|vm_compute; reflexivity]|]). lia.
  - intros E. vm_compute in E. discriminate.
Qed.
Example x_C66_two_sizes : let d := nt_line (T := Q) (1#10) 1 1 [1; 2] 5 nt_phi (fun _ => 1) ends in
  ~ d 0%nat 2%nat == 0 /\ forall i, (i < 5)%nat -> d 0%nat i + d 1%nat i == 0.
Proof.
  split; [intros E; vm_compute in E; discriminate|]. intros i Hi. do 5 (destruct i as [|i]; [vm_compute; reflexivity|]). lia.
Qed.
(** With three sizes the fractions stop summing to one. *)
Lemma p_C66_three_sizes_refuted : exists (dt dx c : Q) ss n phi g b, 0 < dt /\ 0 < dx /\ Forall (fun s => 0 < s) ss /\
  (forall i, (i < n)%nat -> valid_row (phi i)) /\ exists i, (i < n)%nat /\
  ~ lsum (map (fun k => nt_line dt dx c ss n phi g b k i) [0%nat; 1%nat; 2%nat]) == 0.
Proof.
  exists (1#10), 1, 1, [1; 2; 3], 5%nat, nt_tri, (fun _ => 1), ends.
  split; [reflexivity|]. split; [reflexivity|]. split; [repeat (apply Forall_cons; [reflexivity|]); apply Forall_nil|]. split.
  - intros i Hi. do 5 (destruct i as [|i]; [split; [repeat (apply Forall_cons; [split; vm_compute; discriminate|]); apply Forall_nil|vm_compute; reflexivity]|]). lia.
  - exists 2%nat. split; [lia|]. intros E. vm_compute in E. discriminate.
Qed.

(** Two points of different sizes: at the node they share the mean lies strictly
    between the sizes, at the others it is the size of the only point. *)
Example x_C70_mean : exists (G0 G1 G2 : grid Q) L, (G <- grid_init ex_gridp ex_bounds ;; Ok (wipe (ex_params ex_bounds) G)) = Ok G0 /\
  (L <- ref_nodes (ex_params ex_bounds) G0 (ex_L Elastic) ;; basis_all G0 L) = Ok L /\
  p2g_all (ex_params ex_bounds) L G0 = Ok G1 /\
  get_nodal_gsd (ex_params ex_bounds) true (fun p => Some (1 + vx (px p))) L G1 = Ok G2 /\
  nth 0 (g_sbar G2) 0 == 3#2 /\ nth 6 (g_sbar G2) 0 == 5#2 /\ 3#2 < nth 5 (g_sbar G2) 0 /\ nth 5 (g_sbar G2) 0 < 5#2.
Proof.
  eexists _, _, _, _. do 4 (split; [vm_compute; reflexivity|]). repeat split; vm_compute; reflexivity.
Qed.
Example x_C72_total : let d := norm_inc (T := Q) [1#2; 1#2; 9#10] [3#4; -(3#4); 0] in
  lsum d == 0 /\ ~ nth 0 d 0 == 3#4.
Proof. split; [vm_compute; reflexivity|intros E; vm_compute in E; discriminate]. Qed.
(** What it returns need not keep the fractions at most one. *)
Lemma p_C72_range_refuted : exists f d : list Q, Forall (fun a => 0 <= a /\ a <= 1) f /\
  ~ Forall (fun a => a <= 1) (zipw Qplus f (norm_inc f d)).
Proof.
  exists [1#2; 1#2; 9#10], [1; 0; 0]. split.
  - repeat (apply Forall_cons; [split; vm_compute; discriminate|]); apply Forall_nil.
  - intros E. inversion E as [|a l A _]. vm_compute in A. apply A. reflexivity.
Qed.
