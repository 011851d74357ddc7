(** * The mesh during a run: C82.
    Statements only; the proofs are in ThmGeo.v. *)
From Coq Require Import ZArith QArith List Bool Arith Lia.
From Verif Require Import State NumQ PyBase LibList ModelGrid ModelConstit ModelParticle ModelMPList ModelIntegr ModelMain ProofsLaws SpecStep ProofsHist Concrete.
Import ListNotations.
From Verif Require Import ThmGeo.
Local Open Scope bool_scope.

(** In every state that the program can reach, in every number system, the mesh is the one built at the start; the
    blocked nodes are the same as well unless the walls are rough and have a friction coefficient. *)
Theorem C82_mesh : forall (T : Type) (N : Num T) uf fill (s s' : state T), reach uf fill s s' ->
  mesh (sG s') = mesh (sG s) /\
  (roughness (pB (sP s)) = false \/ truthy_mu (wall_mu (pB (sP s))) = None -> bv (sG s') = bv (sG s) /\ bh (sG s') = bh (sG s)).
Proof. exact p_C82_mesh. Qed.
Print Assumptions C82_mesh.

(** A step in a box. *)
Example C82_mesh_example : exists (G : grid Q) s', grid_init (T := Q) ex_gridp ex_box = Ok G /\
  reach (fun P => p_loads P) (fun _ l => l) (mkState (ex_params ex_box) G (ex_L Elastic)) s' /\ (p_t (sP s') == 1 # 10)%Q /\
  roughness (ex_box (T := Q)) = false.
Proof. exact x_C82_mesh. Qed.

Theorem C82_masks_refuted :
  exists (G : grid Q) s', grid_init (T := Q) ex_gridp ex_rub = Ok G /\
    reach (fun P => p_loads P) (fun _ l => l) (mkState (ex_params ex_rub) G (ex_L Elastic)) s' /\
    existsb (fun m => m) (bh G) = false /\ existsb (fun m => m) (bh (sG s')) = true.
Proof. exact p_C82_masks_refuted. Qed.
Print Assumptions C82_masks_refuted.
