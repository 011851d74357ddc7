(** * The kinetic pressure at empty nodes: C85. *)
From Coq Require Import ZArith QArith List Bool.
From Verif Require Import State Num NumQ NumX ModelGrid ModelConstit ModelParticle ModelMPList ModelIntegr ModelMain Concrete.
Import ListNotations.
Local Open Scope Q_scope.

Definition seg_params : params (X Q) := ex_params ex_bounds <| p_seg := true |> <| p_c := Some (Fin 1) |> <| p_l := Some (Fin 1) |>.
(** The kinetic pressure is a number at every node: false.  After the first step of a segregating run, the nodes that carry
    no mass hold NaN, while the nodes of the body hold numbers, some of them positive. *)
Lemma p_C85_number_refuted : exists (G : grid (X Q)) s',
  grid_init (T := X Q) ex_gridp ex_bounds = Ok G /\
  time_march (fun P => p_loads P) (fun _ l => l) (mkState seg_params G (ex_L Elastic)) = Ok s' /\
  nth 2 (gm (sG s')) NaN = Fin 0 /\ nth 2 (g_pk (sG s')) PInf = NaN /\
  (exists a, nth 0 (g_pk (sG s')) NaN = Fin a /\ 0 < a).
Proof.
  eexists. eexists. split; [vm_compute; reflexivity|]. split; [vm_compute; reflexivity|].
  split; [vm_compute; reflexivity|]. split; [vm_compute; reflexivity|]. eexists. split; vm_compute; reflexivity.
Qed.
