(** * A concrete simulation, used to show that hypotheses can be met.

    Everything is generic in the number type so that the same case can be run
    (at [Q], by [vm_compute]) and reasoned about (at [R]). *)
From Coq Require Import ZArith List String.
From Verif Require Import State ModelGrid ModelConstit ModelParticle ModelMPList ModelIntegr ModelMain.
Import ListNotations.

Section Ex.
  Context {T : Type} `{Num T}.
  Local Open Scope num_scope.

  (** A grid of 4 by 3 nodes on [0,3] x [0,2]. *)
  Definition ex_gridp : gridp T :=
    mkGridp n0 (nofZ 3) n0 n2 4 3 (Some n1) (Some n1) n1 2 [n1; n2] (Some n1) None.
  Definition ex_bounds : bounds T :=
    mkBounds false false false None false false false false false false false
             false false false false false false false false false.
  (** Walls on all four sides. *)
  Definition ex_box : bounds T :=
    mkBounds false false false None false false true true true true false
             false false false false false false false false false.
  Definition ex_loads : loads T := mkLoads (- n1) n0 n0 n0.
  Definition ex_params (B : bounds T) : params T :=
    mkParams ex_gridp B n0 (lit 1 10) 0%Z n1 nhalf (lit 1 1000) ex_loads (- n1)
             false false false false false false n1
             PNone FNone None None None None None.
  Definition ex_solid (l : law_name) : solid T :=
    mkSolid n2 n1 l [nhalf; nhalf]
            (Some n3) (Some n2) (Some n1) (Some n2) (Some n0) (Some nhalf) (Some n1) (Some n1)
            (Some (Ar [nhalf; nhalf])) (Some (Ar [nhalf; nhalf])) (Some (Ar [n1; n1]))
            (Some n1) (Some n1) (Some n1) (Some n1)
            (Some n2) (Some n1) (Some n1) (Some n1)
            (Some n1) (Some n0) (Some n0) (Some n1)
            (Some n1) (Some n1) [n1] (Some (nhalf, nhalf)) false None.
  (** A particle at rest position [x,y] with velocity [v] and stress [s]. *)
  Definition ex_particle (x y : T) (v : V3 T) (s : M3 T) : particle T :=
    mkParticle (mkV3 x y n0) (Own v) n1 n2 n2 v0
               s m0 m0 m0 m0 m0 n0 n0 m0 m0
               n0 n0 n0 n0 n0 n0
               (repeat n0 4) (repeat v0 4) 0%Z [nhalf; nhalf] n0 None n0 n0.
  Definition ex_stress : M3 T := mkM3 n1 n2 n0 n2 n3 n0 n0 n0 n1.
  Definition ex_p1 : particle T := ex_particle nhalf nhalf (mkV3 n1 n0 n0) ex_stress.
  Definition ex_p2 : particle T := ex_particle (lit 3 2) (lit 5 4) (mkV3 n0 (- n1) n0) m0.
  Definition ex_phase (l : law_name) : phase T := mkPhase (ex_solid l) 2 v0 [ex_p1; ex_p2].
  Definition ex_L (l : law_name) : list (phase T) := [ex_phase l].
End Ex.
