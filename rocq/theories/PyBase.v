(** * Python and numpy idioms used by the code: indexing, slices, loops. *)
From Coq Require Import ZArith List Bool Arith.
From Verif Require Import Num.
Import ListNotations.

(** Python index: negative indices count from the end, out of range raises
    [IndexError]. *)
Definition py_idx {A} (l : list A) (i : Z) : res nat :=
  let n := Z.of_nat (length l) in
  if ((0 <=? i) && (i <? n))%Z then Ok (Z.to_nat i)
  else if ((- n <=? i) && (i <? 0))%Z then Ok (Z.to_nat (i + n))
  else Err IndexError.

Definition nth_res {A} (l : list A) (k : nat) : res A :=
  match nth_error l k with Some a => Ok a | None => Err IndexError end.

Definition py_get {A} (l : list A) (i : Z) : res A :=
  k <- py_idx l i ;; nth_res l k.

(** Functional update at position [k] (no effect out of range). *)
Fixpoint upd {A} (k : nat) (f : A -> A) (l : list A) : list A :=
  match l, k with
  | [], _ => []
  | a :: l', O => f a :: l'
  | a :: l', S k' => a :: upd k' f l'
  end.

(** [l[i] = f(l[i])], i.e. augmented assignment at an index. *)
Definition py_upd {A} (l : list A) (i : Z) (f : A -> A) : res (list A) :=
  k <- py_idx l i ;; Ok (upd k f l).

(** [map] with the position. *)
Fixpoint mapi_from {A B} (k : nat) (f : nat -> A -> B) (l : list A) : list B :=
  match l with [] => [] | a :: l' => f k a :: mapi_from (S k) f l' end.
Definition mapi {A B} (f : nat -> A -> B) (l : list A) : list B := mapi_from 0 f l.

(** Two lists, elementwise (numpy elementwise operators on equal shapes). *)
Fixpoint zipw {A B C} (f : A -> B -> C) (l : list A) (m : list B) : list C :=
  match l, m with
  | a :: l', b :: m' => f a b :: zipw f l' m'
  | _, _ => []
  end.

(** Python slice [start:stop:step] for positive step: [None] is a missing
    bound; negative bounds count from the end; bounds are clipped to [0,len]. *)
Definition clip_bound (len : nat) (b : Z) : Z :=
  let n := Z.of_nat len in
  if (b <? 0)%Z then Z.max 0 (b + n) else Z.min b n.

Definition in_slice (len : nat) (start stop : option Z) (step : Z) (i : nat) : bool :=
  let a := match start with None => 0%Z | Some s => clip_bound len s end in
  let b := match stop with None => Z.of_nat len | Some s => clip_bound len s end in
  ((a <=? Z.of_nat i) && (Z.of_nat i <? b) && ((Z.of_nat i - a) mod step =? 0))%Z.

(** [l[start:stop:step] = f(...)] elementwise with a scalar right hand side. *)
Definition map_slice {A} (start stop : option Z) (step : Z) (f : A -> A) (l : list A) : list A :=
  mapi (fun i a => if in_slice (length l) start stop step i then f a else a) l.

(** [l[start:stop:step]] as a list. *)
Definition get_slice {A} (start stop : option Z) (step : Z) (l : list A) : list A :=
  map snd (filter (fun p => in_slice (length l) start stop step (fst p))
                  (combine (seq 0 (length l)) l)).

(** [l[start:stop:step] op= vals] with an array right hand side: the values are
    consumed in order. *)
Fixpoint zip_slice_from {A B} (k len : nat) (start stop : option Z) (step : Z)
         (f : A -> B -> A) (l : list A) (vals : list B) : list A :=
  match l with
  | [] => []
  | a :: l' =>
      if in_slice len start stop step k then
        match vals with
        | [] => a :: zip_slice_from (S k) len start stop step f l' []
        | v :: vs => f a v :: zip_slice_from (S k) len start stop step f l' vs
        end
      else a :: zip_slice_from (S k) len start stop step f l' vals
  end.
(** numpy raises [ValueError] when the shapes differ. *)
Definition zip_slice {A B} (start stop : option Z) (step : Z) (f : A -> B -> A)
           (l : list A) (vals : list B) : res (list A) :=
  if Nat.eqb (length (get_slice start stop step l)) (length vals)
  then Ok (zip_slice_from 0 (length l) start stop step f l vals)
  else Err ValueError.

(** [for x in l: s = f(s,x)] with exceptions. *)
Fixpoint foldM {S A} (f : S -> A -> res S) (s : S) (l : list A) : res S :=
  match l with
  | [] => Ok s
  | a :: l' => s' <- f s a ;; foldM f s' l'
  end.

(** [for i in range(n): (obj[i], s) = f(obj[i], s)]: indexing past the end
    raises [IndexError]. *)
Fixpoint each {S A} (n : nat) (f : A -> S -> res (A * S)) (l : list A) (s : S)
  : res (list A * S) :=
  match n with
  | O => Ok (l, s)
  | S n' =>
      match l with
      | [] => Err IndexError
      | a :: l' =>
          '(a', s') <- f a s ;;
          '(l'', s'') <- each n' f l' s' ;;
          Ok (a' :: l'', s'')
      end
  end.

(** Pairs (position, element) in order: [enumerate]. *)
Fixpoint enum_from {A} (k : nat) (l : list A) : list (nat * A) :=
  match l with [] => [] | a :: l' => (k, a) :: enum_from (S k) l' end.

(** Loop over the elements with a state, rebuilding the list
    ([for p in range(phases)]). *)
Fixpoint forM {S A} (f : nat -> A -> S -> res (A * S)) (k : nat) (l : list A) (s : S)
  : res (list A * S) :=
  match l with
  | [] => Ok ([], s)
  | a :: l' =>
      '(a', s') <- f k a s ;;
      '(l'', s'') <- forM f (Datatypes.S k) l' s' ;;
      Ok (a' :: l'', s'')
  end.

(** [[f(x) for x in l]] with exceptions. *)
Fixpoint mapM {A B} (f : A -> res B) (l : list A) : res (list B) :=
  match l with
  | [] => Ok []
  | a :: l' => b <- f a ;; bs <- mapM f l' ;; Ok (b :: bs)
  end.
