(** * The stand-alone segregation solver: concrete runs *)
From Coq Require Import ZArith List Bool Arith Lia QArith.
From Verif Require Import State NumQ ModelGrid ModelIntegr ModelNewInt.
Import ListNotations.
Local Open Scope Q_scope.

Definition qline (l : list Q) (i : nat) : Q := nth i l 0.
Definition qsum (n : nat) (f : nat -> Q) : Q := lsum (map f (seq 0 n)).
(** The increments that sum to zero in C57 are not all zero. *)
Example x_C57_euler : let d := nEuler (T := Q) 1 (1#4) 4 (qline [1; 1#2; 1#3; 0]) (fun _ => 1) in
  qsum 4 d == 0 /\ ~ d 1%nat == 0 /\ ~ d 2%nat == 0.
Proof. cbv zeta. split; [vm_compute; reflexivity|split; intros E; vm_compute in E; discriminate]. Qed.
Example x_C57_rk3 : let c := nRK3 (T := Q) 1 (1#4) 2 (qline [1#2; 0]) (fun _ => 1) in
  qsum 2 c == (1#2) /\ ~ c 1%nat == 0.
Proof. cbv zeta. split; [vm_compute; reflexivity|intros E; vm_compute in E; discriminate]. Qed.
(** A velocity that varies along the line creates concentration. *)
Lemma p_C57_varying_refuted : exists (dx dt : Q) n c v, 0 < dx /\ 0 < dt /\ (forall i, 0 <= c i <= 1) /\ ~ qsum n (nEuler (T := Q) dx dt n c v) == 0.
Proof.
  exists 1, (1#4), 3%nat, (fun _ => 1#2), (qline [1; 2; 3]). split; [reflexivity|]. split; [reflexivity|].
  split; [intros i; split; discriminate|]. intros E. vm_compute in E. discriminate.
Qed.
(** The diffusion step does not keep the total. *)
Lemma p_C57_diffusion_refuted : exists (D dx dt : Q) n c, 0 < D /\ 0 < dx /\ 0 < dt /\ (forall i, 0 <= c i <= 1) /\ ~ qsum n (ndiffusion (T := Q) D dx dt n c) == qsum n c.
Proof.
  exists 1, 1, (1#4), 4%nat, (qline [0; 1; 0; 0]). split; [reflexivity|]. split; [reflexivity|]. split; [reflexivity|].
  split; [intros [|[|[|[|[|i]]]]]; split; discriminate|]. intros E. vm_compute in E. discriminate.
Qed.
