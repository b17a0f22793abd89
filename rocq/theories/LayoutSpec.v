(** C62: what a client expects of the storage of variants. *)
From Coq Require Import List Bool Arith.
From Verif Require Import LayoutModel.
Import ListNotations.

(** Objects have a size and an alignment. *)
Definition proper (T : ctype) : Prop := 0 < size T /\ 0 < align T.
(** The alignment is one that the storage chosen for the type has. *)
Definition suits (T : ctype) : Prop :=
  match place_of T with InPlace => Nat.divide (align T) 8 | Heap => Nat.divide (align T) 16 | Refer => True end.

(** The types whose values a client puts into variants. *)
Definition op_types (o : op) : list ctype := match o with Make _ T _ | SetValue _ T _ => [T] | _ => [] end.
Definition types (l : list op) : list ctype := flat_map op_types l.

(** A client ran, in an environment that gives the addresses [o]. *)
Definition ran (o : list nat) (l : list op) (s : state) : Prop := exec_all l (start o) = Some (tt, s).

(** The variant at [a] holds an object of type [T], at [p]. *)
Definition content (s : state) (a : nat) (T : ctype) (p : nat) : Prop :=
  In (a, Some T) (vars s) /\ match place_of T with InPlace => p = a | Heap => ptrs s a = Some p | Refer => False end.

(** The variants a client has: those it made and has not ended. *)
Fixpoint owns (l : list op) (A : list nat) : list nat :=
  match l with
  | [] => A
  | Default a :: l' | Make a _ _ :: l' | CopyOf a _ :: l' | MoveOf a _ :: l' => owns l' (a :: A)
  | Drop a :: l' => owns l' (remove Nat.eq_dec a A)
  | _ :: l' => owns l' A
  end.
