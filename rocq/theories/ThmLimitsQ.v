(** * Concentrations above one *)
From Coq Require Import ZArith List Bool Arith Lia Reals Lra QArith.
From Verif Require Import State NumQ ModelGrid ModelIntegr ModelNewInt Concrete ThmSegQ.
Import ListNotations.
Local Open Scope Q_scope.

Definition prof (l : list Q) (i : nat) : Q := nth i l 0.
(** A profile with room to fall: the step changes it and nothing becomes negative. *)
Example x_C74_nonneg : let c := prof [0; 0; 1#2; 1; 1] in let d := nEuler (T := Q) 1 (1#10) 5 c (fun _ => 1) in
  (forall i, (i < 5)%nat -> 0 <= c i + d i) /\ ~ d 1%nat == 0 /\ ~ d 2%nat == 0.
Proof.
  split; [|split; intros E; vm_compute in E; discriminate].
  intros i Hi. do 5 (destruct i as [|i]; [vm_compute; discriminate|]). lia.
Qed.
(** With the Courant number of the main program a step lifts a concentration above one. *)
Lemma p_C74_range_refuted : exists (dx dt : Q) n c v i, 0 < dx /\ (forall k, (k < n)%nat -> 0 <= c k /\ c k <= 1) /\
  (forall k, v k == 1 \/ v k == - (1)) /\ dt == (1#10) * dx /\ (i < n)%nat /\ 1 < c i + nEuler dx dt n c v i.
Proof.
  exists 1, (1#10), 5%nat, (prof [1; 1; 9#10; 1; 1]), (fun _ => 1), 3%nat. split; [reflexivity|]. split.
  - intros k Hk. do 5 (destruct k as [|k]; [split; vm_compute; discriminate|]). lia.
  - split; [left; reflexivity|]. split; [reflexivity|]. split; [lia|]. vm_compute. reflexivity.
Qed.
(** So does a step of the program itself (RK3 and diffusion). *)
Lemma p_C74_main_refuted : exists (dx dt D : Q) n c i, 0 < dx /\ 0 < D /\ (forall k, (k < n)%nat -> 0 <= c k /\ c k <= 1) /\
  dt == (1#10) * dx /\ (i < n)%nat /\ 1 < nrun dx dt D n (fun _ => - (1)) 1 c i.
Proof.
  exists 1, (1#10), (1#200), 9%nat, (prof [1; 1; 1; 1; 9#10; 1; 1; 1; 1]), 3%nat. split; [reflexivity|]. split; [reflexivity|]. split.
  - intros k Hk. do 9 (destruct k as [|k]; [split; vm_compute; discriminate|]). lia.
  - split; [reflexivity|]. split; [lia|]. vm_compute. reflexivity.
Qed.
Definition dip (i : nat) : list Q := match i with 2%nat => [9#10; 1#10] | _ => [1; 0] end.
(** KT: valid fractions of two sizes, a tenth of a cell per step, and still a
    fraction above one. *)
Lemma p_C75_range_refuted : exists (dt dx c : Q) ss n phi g k i, 0 < dt /\ 0 < dx /\ Forall (fun s => 0 < s) ss /\
  (forall j, (j < n)%nat -> valid_row (phi j)) /\ (k < length ss)%nat /\ (i < n)%nat /\
  (forall j, (j < n)%nat -> dt * Qabs.Qabs (c * (1 / (inv_size ss (phi j) * nth k ss 0) - 1) * g j) <= (1#4) * dx) /\
  1 < nth k (phi i) 0 + kt_line false dt dx c ss n phi g (fun _ => false) k i.
Proof.
  exists (1#10), 1, 1, [1; 2], 7%nat, dip, (fun _ => 1), 0%nat, 3%nat.
  split; [reflexivity|]. split; [reflexivity|]. split; [repeat (apply Forall_cons; [reflexivity|]); apply Forall_nil|]. split.
  - intros i Hi. do 7 (destruct i as [|i]; [split; [repeat (apply Forall_cons; [split; vm_compute; discriminate|]); apply Forall_nil|vm_compute; reflexivity]|]). lia.
  - split; [cbn; lia|]. split; [lia|]. split; [|vm_compute; reflexivity].
    intros i Hi. do 7 (destruct i as [|i]; [vm_compute; discriminate|]). lia.
Qed.
