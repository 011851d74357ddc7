(** * Small vectors and matrices (numpy arrays of shape (3,) and (3,3)). *)
From Coq Require Import ZArith List.
From Verif Require Import Num.
Import ListNotations.

Record V3 (T : Type) := mkV3 { vx : T; vy : T; vz : T }.
Arguments mkV3 {T}. Arguments vx {T}. Arguments vy {T}. Arguments vz {T}.

Record M3 (T : Type) := mkM3 {
  xx : T; xy : T; xz : T; yx : T; yy : T; yz : T; zx : T; zy : T; zz : T }.
Arguments mkM3 {T}.
Arguments xx {T}. Arguments xy {T}. Arguments xz {T}.
Arguments yx {T}. Arguments yy {T}. Arguments yz {T}.
Arguments zx {T}. Arguments zy {T}. Arguments zz {T}.

(** 2x2 blocks, used by the Drucker-Prager laws. *)
Record M2 (T : Type) := mkM2 { aa : T; ab : T; ba : T; bb : T }.
Arguments mkM2 {T}. Arguments aa {T}. Arguments ab {T}. Arguments ba {T}. Arguments bb {T}.

Section Ops.
  Context {T : Type} `{Num T}.
  Local Open Scope num_scope.

  Definition v0 : V3 T := mkV3 n0 n0 n0.
  Definition vmap2 (f : T -> T -> T) (a b : V3 T) : V3 T :=
    mkV3 (f (vx a) (vx b)) (f (vy a) (vy b)) (f (vz a) (vz b)).
  Definition vmap (f : T -> T) (a : V3 T) : V3 T := mkV3 (f (vx a)) (f (vy a)) (f (vz a)).
  Definition vadd := vmap2 nadd.
  Definition vsub := vmap2 nsub.
  Definition vscale (k : T) (a : V3 T) : V3 T := vmap (fun x => k * x) a.
  Definition vdivs (a : V3 T) (k : T) : V3 T := vmap (fun x => x / k) a.
  Definition vmuls (a : V3 T) (k : T) : V3 T := vmap (fun x => x * k) a.
  Definition setx (f : T -> T) (a : V3 T) : V3 T := mkV3 (f (vx a)) (vy a) (vz a).
  Definition sety (f : T -> T) (a : V3 T) : V3 T := mkV3 (vx a) (f (vy a)) (vz a).
  Definition setz (f : T -> T) (a : V3 T) : V3 T := mkV3 (vx a) (vy a) (f (vz a)).

  Definition mmap2 (f : T -> T -> T) (a b : M3 T) : M3 T :=
    mkM3 (f (xx a) (xx b)) (f (xy a) (xy b)) (f (xz a) (xz b))
         (f (yx a) (yx b)) (f (yy a) (yy b)) (f (yz a) (yz b))
         (f (zx a) (zx b)) (f (zy a) (zy b)) (f (zz a) (zz b)).
  Definition mmap (f : T -> T) (a : M3 T) : M3 T :=
    mkM3 (f (xx a)) (f (xy a)) (f (xz a)) (f (yx a)) (f (yy a)) (f (yz a))
         (f (zx a)) (f (zy a)) (f (zz a)).
  Definition m0 : M3 T := mkM3 n0 n0 n0 n0 n0 n0 n0 n0 n0.
  (** [eye(3)] *)
  Definition eye : M3 T := mkM3 n1 n0 n0 n0 n1 n0 n0 n0 n1.
  Definition mones : M3 T := mkM3 n1 n1 n1 n1 n1 n1 n1 n1 n1.
  Definition madd := mmap2 nadd.
  Definition msub := mmap2 nsub.
  Definition mmulE := mmap2 nmul.            (* elementwise product *)
  Definition mscale (k : T) (a : M3 T) : M3 T := mmap (fun x => k * x) a.
  Definition mmuls (a : M3 T) (k : T) : M3 T := mmap (fun x => x * k) a.
  Definition mdivs (a : M3 T) (k : T) : M3 T := mmap (fun x => x / k) a.
  Definition mopp (a : M3 T) : M3 T := mmap nopp a.
  Definition mtr (a : M3 T) : M3 T :=
    mkM3 (xx a) (yx a) (zx a) (xy a) (yy a) (zy a) (xz a) (yz a) (zz a).
  (** [trace] *)
  Definition trace (a : M3 T) : T := xx a + yy a + zz a.
  (** [sum(sum(a))] *)
  Definition msum (a : M3 T) : T :=
    (xx a + yx a + zx a) + (xy a + yy a + zy a) + (xz a + yz a + zz a).
  (** [numpy.linalg.norm] of a matrix (Frobenius). *)
  Definition mnorm (a : M3 T) : T := nsqrt (msum (mmap nsq a)).
  (** [outer(a,b)] *)
  Definition outer (a b : V3 T) : M3 T :=
    mkM3 (vx a * vx b) (vx a * vy b) (vx a * vz b)
         (vy a * vx b) (vy a * vy b) (vy a * vz b)
         (vz a * vx b) (vz a * vy b) (vz a * vz b).
  (** [dot(m,v)] *)
  Definition mv (a : M3 T) (b : V3 T) : V3 T :=
    mkV3 (xx a * vx b + xy a * vy b + xz a * vz b)
         (yx a * vx b + yy a * vy b + yz a * vz b)
         (zx a * vx b + zy a * vy b + zz a * vz b).
  (** [dot(m,m)] *)
  Definition mm (a b : M3 T) : M3 T :=
    mkM3 (xx a * xx b + xy a * yx b + xz a * zx b)
         (xx a * xy b + xy a * yy b + xz a * zy b)
         (xx a * xz b + xy a * yz b + xz a * zz b)
         (yx a * xx b + yy a * yx b + yz a * zx b)
         (yx a * xy b + yy a * yy b + yz a * zy b)
         (yx a * xz b + yy a * yz b + yz a * zz b)
         (zx a * xx b + zy a * yx b + zz a * zx b)
         (zx a * xy b + zy a * yy b + zz a * zy b)
         (zx a * xz b + zy a * yz b + zz a * zz b).
  (** [isfinite(a).all()] *)
  Definition mallfin (a : M3 T) : bool :=
    (nfin (xx a) && nfin (xy a) && nfin (xz a) && nfin (yx a) && nfin (yy a) &&
     nfin (yz a) && nfin (zx a) && nfin (zy a) && nfin (zz a))%bool.

  Definition m2map (f : T -> T) (a : M2 T) : M2 T := mkM2 (f (aa a)) (f (ab a)) (f (ba a)) (f (bb a)).
  Definition m2map2 (f : T -> T -> T) (a b : M2 T) : M2 T :=
    mkM2 (f (aa a) (aa b)) (f (ab a) (ab b)) (f (ba a) (ba b)) (f (bb a) (bb b)).
  Definition eye2 : M2 T := mkM2 n1 n0 n0 n1.
  Definition m2add := m2map2 nadd.
  Definition m2sub := m2map2 nsub.
  Definition m2mulE := m2map2 nmul.
  Definition m2scale (k : T) (a : M2 T) : M2 T := m2map (fun x => k * x) a.
  Definition m2muls (a : M2 T) (k : T) : M2 T := m2map (fun x => x * k) a.
  Definition m2divs (a : M2 T) (k : T) : M2 T := m2map (fun x => x / k) a.
  Definition trace2 (a : M2 T) : T := aa a + bb a.
  Definition m2sum (a : M2 T) : T := (aa a + ba a) + (ab a + bb a).
  (** [a[:2,:2]] *)
  Definition block2 (a : M3 T) : M2 T := mkM2 (xx a) (xy a) (yx a) (yy a).
  (** [a[:2,:2] = b] *)
  Definition set_block2 (a : M3 T) (b : M2 T) : M3 T :=
    mkM3 (aa b) (ab b) (xz a) (ba b) (bb b) (yz a) (zx a) (zy a) (zz a).

  (** Sum of a list, left to right from zero. *)
  Definition lsum (l : list T) : T := fold_left nadd l n0.
End Ops.
