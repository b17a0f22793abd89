(** What is claimed about creating items from several threads, independently of how a step works. *)
From Coq Require Import List Bool Arith String.
From Verif Require Import CreateModel.
Import ListNotations.

(** The list and name a request is about. *)
Definition key_of (r : request) : option key :=
  match r with
  | Namespace o n => Some (CNamespace, o, n)
  | Enum o n => Some (CEnum, o, n)
  | Class o n _ => Some (CClass, o, n)
  | Find _ => None
  end.

Definition nonempty (k : key) : Prop := snd k <> ""%string.

Definition is_class (r : request) : Prop := match r with Class _ _ _ => True | _ => False end.

(** Some thread was given answer [x] to request [r]. *)
Definition answered (c : memory * list agent) (r : request) (x : answer) : Prop :=
  exists i t, nth_error (snd c) i = Some t /\ In (r, x) (got t).

(** Object [a] is the item under [k], and the only one. *)
Definition sole (c : memory * list agent) (k : key) (a : nat) : Prop :=
  In (k, a) (cells (fst c)) /\ forall a', In (k, a') (cells (fst c)) -> a' = a.

(** Every thread has done all it had to do. *)
Definition quiet (c : memory * list agent) : Prop :=
  forall i t, nth_error (snd c) i = Some t -> at_ t = Idle /\ todo t = [].

(** Some thread is asked to do [r]. *)
Definition requested (programs : list (list request)) (r : request) : Prop :=
  exists l, In l programs /\ In r l.

(** Type [ty] is registered under one name in one place, and that place is used for no other type. *)
Definition one_place (programs : list (list request)) (o : nat) (n : string) (ty : nat) : Prop :=
  (forall o' n', requested programs (Class o' n' ty) -> o' = o /\ n' = n) /\
  (forall ty', requested programs (Class o n ty') -> ty' = ty).
