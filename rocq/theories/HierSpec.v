(** What is claimed about class hierarchies declared and searched by several threads, independently of how a step works. *)
From Coq Require Import List Bool Arith.
From Verif Require Import HierModel.
Import ListNotations.

(** [b] is [a] or an ancestor of it, given the bases of every class. *)
Inductive reach (g : nat -> list nat) : nat -> nat -> Prop :=
  | RHere a : reach g a a
  | RStep a d b : In d (g a) -> reach g d b -> reach g a b.

(** [l] is a chain of classes from [a] to [b], each a base of the one before in [g'], chosen such that no base before it
    in the list led to [b] in [g]. With the same bases in [g] and [g'] this is the first chain in the order of declaration. *)
Fixpoint guided (g g' : nat -> list nat) (a : nat) (l : list nat) (b : nat) : Prop :=
  match l with
  | [] => False
  | [x] => x = a /\ x = b
  | x :: ((y :: _) as r) =>
      x = a /\ x <> b /\
      (exists i, nth_error (g' x) i = Some y /\ forall j d, j < i -> nth_error (g x) j = Some d -> ~ reach g d b) /\
      guided g g' y r b
  end.

(** Lists only grow at their ends. *)
Definition grows (g g' : nat -> list nat) : Prop := forall x, exists l, g' x = g x ++ l.

(** Every answer fits the hierarchy as it was while the request ran: what is affirmed holds at its end, what is denied
    did not hold at its beginning. *)
Definition fits (e : entry) : Prop :=
  match e_request e, e_answer e with
  | AddBase c b, Done => In b (bases (e_to e) c) /\ In c (derived (e_to e) b)
  | Inherited a b, Is r =>
      (r = true -> reach (bases (e_to e)) a b) /\ (r = false -> ~ reach (bases (e_from e)) a b)
  | Cast a b, Via r =>
      match r with Some l => guided (bases (e_from e)) (bases (e_to e)) a l b | None => ~ reach (bases (e_from e)) a b end
  | BaseAt c i, Item r => r = nth_error (bases (e_to e) c) i
  | DerivedAt c i, Item r => r = nth_error (derived (e_to e) c) i
  | _, _ => False
  end.

(** Some thread was answered; all threads are done; some program declares [b] a base of [c]. *)
Definition answered (c : memory * list thread) (e : entry) : Prop := exists t, In t (snd c) /\ In e (got t).
Definition quiet (c : memory * list thread) : Prop := forall t, In t (snd c) -> where_ t = Idle /\ todo t = [].
Definition declared (programs : list (list request)) (c b : nat) : Prop := exists l, In l programs /\ In (AddBase c b) l.

(** A round gives every one of [n] threads at least one turn. *)
Definition round (n : nat) (l : list nat) : Prop := forall i, i < n -> In i l.

(** No class is declared below itself: its bases have smaller ranks. *)
Definition ranked (programs : list (list request)) (rank : nat -> nat) : Prop :=
  forall c b, declared programs c b -> rank b < rank c.
