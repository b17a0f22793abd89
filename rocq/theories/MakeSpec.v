(** What a client may expect of objects it makes and ends through their type: a world of handles, each of which is an
    object or not. Says nothing of storage, managers and constructors. Of MakeModel only the traits of types and the
    calls, answers and events are used. *)
From Coq Require Import NArith List Bool Arith.
From Verif Require Import TypesModel TypesSpec MakeModel.
Import ListNotations.

(** The value of an object; indeterminate; moved from. *)
Inductive content := Value (v : nat) | Unset | Taken.

(** The handles in the order of the calls that gave them; None: the call threw, or the object has ended. Arrays have
    many contents. *)
Definition world := list (option (ty * list content)).

Fixpoint changed {A} (l : list A) (x : nat) (a : A) : list A :=
  match l, x with b :: r, 0 => a :: r | b :: r, S y => b :: changed r y a | [], _ => [] end.

Section Expected.
  Variable cls : base -> traits.

  (** An object of a type is made of so many objects of a type with these traits that is not an array. *)
  Inductive consists : ty -> nat -> traits -> Prop :=
  | consists_base c v b : consists (TBase c v b) 1 (cls b)
  | consists_ptr c v t : consists (TPtr c v t) 1 pointer_traits
  | consists_arr t n k r : consists t k r -> consists (TArr t n) (N.to_nat n * k) r.

  Definition array (q : qty) : Prop := exists t n, q_ty q = TArr t n.

  (** What a call does to the world. *)
  Inductive acts (w : world) : call -> answer -> world -> Prop :=
  | acts_make q n r : consists (q_ty q) n r -> has_default r = true ->
      acts w (Make q) Made (w ++ [Some (q_ty q, repeat (if trivial_default r then Unset else Value (initial r)) n)])
  | acts_no_make q n r : consists (q_ty q) n r -> has_default r = false \/ (trivial_default r = false /\ sure_default r = false) ->
      acts w (Make q) Threw (w ++ [None])
  | acts_copy q x u cs n r : nth_error w x = Some (Some (u, cs)) -> consists (q_ty q) n r -> has_copy r = true ->
      acts w (Copy q x) Made (w ++ [Some (q_ty q, cs)])
  | acts_no_copy q x n r : consists (q_ty q) n r -> has_copy r = false \/ (~ array q /\ sure_copy r = false) ->
      acts w (Copy q x) Threw (w ++ [None])
  | acts_move q x u cs n r : nth_error w x = Some (Some (u, cs)) -> consists (q_ty q) n r -> has_move r = true ->
      steals r = false \/ array q ->
      acts w (Move q x) Made (w ++ [Some (q_ty q, cs)])
  | acts_steal q x u cs n r : nth_error w x = Some (Some (u, cs)) -> consists (q_ty q) n r -> has_move r = true ->
      steals r = true -> ~ array q ->
      acts w (Move q x) Made (changed w x (Some (u, [Taken])) ++ [Some (q_ty q, cs)])
  | acts_move_copy q x u cs n r : nth_error w x = Some (Some (u, cs)) -> consists (q_ty q) n r -> has_move r = false -> has_copy r = true ->
      acts w (Move q x) Made (w ++ [Some (q_ty q, cs)])
  | acts_no_move q x n r : consists (q_ty q) n r ->
      (has_move r = false /\ has_copy r = false) \/ (~ array q /\ has_move r = true /\ sure_move r = false)
      \/ (~ array q /\ has_move r = false /\ sure_copy r = false) ->
      acts w (Move q x) Threw (w ++ [None])
  | acts_end q x u cs : nth_error w x = Some (Some (u, cs)) -> acts w (End_ q x) Done (changed w x None)
  | acts_end_none q x : nth_error w x = Some None -> acts w (End_ q x) Done w.

  (** Many calls. *)
  Inductive acts_all : world -> list (call * answer) -> world -> Prop :=
  | acts_nil w : acts_all w [] w
  | acts_cons w c a w1 l w2 : acts w c a w1 -> acts_all w1 l w2 -> acts_all w ((c, a) :: l) w2.

  (** Types whose objects can be kept this way: not void, not over-aligned. *)
  Definition proper (q : qty) : Prop :=
    (forall c v b, q_ty q = TBase c v b -> b_kind b <> KVoid) /\
    (forall n r, consists (q_ty q) n r -> over_aligned r = false).

  (** The handle is an object that a call for [q] can take as one of its type, however [q] is qualified. *)
  Definition is_a (w : world) (x : nat) (q : qty) (cs : list content) : Prop :=
    exists u, nth_error w x = Some (Some (u, cs)) /\ similar u (q_ty q).

  (** What a client must heed: it copies objects that have a value, arrays only of trivially copyable elements, and
      ends objects as what they are, or nothing. *)
  Definition legal (w : world) (c : call) : Prop :=
    match c with
    | Make q => proper q
    | Copy q x | Move q x =>
        proper q /\ exists cs, is_a w x q cs /\ ~ In Unset cs /\ (forall n r, array q -> consists (q_ty q) n r -> trivial_copy r = true)
    | End_ q x => nth_error w x = Some None \/ (proper q /\ exists cs, is_a w x q cs)
    end.
  Fixpoint careful (w : world) (m : client) : Prop :=
    match m with Stop => True | Then c k => legal w c /\ forall a w', acts w c a w' -> careful w' (k a) end.
End Expected.

(** How many handles are objects; how many calls threw. *)
Fixpoint alive (w : world) : nat := match w with [] => 0 | Some _ :: r => S (alive r) | None :: r => alive r end.
Fixpoint thrown (l : list (call * answer)) : nat :=
  match l with [] => 0 | (_, Threw) :: r => S (thrown r) | _ :: r => thrown r end.
(** How many pointers the client holds that are not null. *)
Fixpoint holding (h : list (option nat)) : nat := match h with [] => 0 | Some _ :: r => S (holding r) | None :: r => holding r end.
(** How much storage is in use. *)
Fixpoint in_use (h : list (option (list cell))) : nat := match h with [] => 0 | Some _ :: r => S (in_use r) | None :: r => in_use r end.

(** What is stored for a content. *)
Definition stored (c : content) (k : cell) : Prop :=
  match c, k with Value v, Val v' => v = v' | Unset, Loose => True | Taken, Hollow => True | _, _ => False end.

(** What the client holds is the world: each object at an address of its own, which holds its contents. *)
Record mirrors (w : world) (held : list (option nat)) (h : list (option (list cell))) : Prop := {
  mirrors_length : length held = length w;
  mirrors_none : forall x, nth_error w x = Some None -> nth_error held x = Some None;
  mirrors_some : forall x u cs, nth_error w x = Some (Some (u, cs)) ->
    exists p b, nth_error held x = Some (Some p) /\ nth_error h p = Some (Some b) /\ Forall2 stored cs b;
  mirrors_apart : forall x y p, nth_error held x = Some (Some p) -> nth_error held y = Some (Some p) -> x = y
}.

(** The types the calls asked for that gave handles. *)
Definition asked (l : list (call * answer)) : list qty :=
  flat_map (fun '(c, _) => match c with Make q => [q] | Copy q _ => [q] | Move q _ => [q] | End_ _ _ => [] end) l.

(** Which events may follow: storage is given out once; objects are built in it and, if they need it, ended, before it is
    freed; what was built of an object that needs it, is ended before. *)
Definition needs_end (cls : base -> traits) (ask : list qty) (p : nat) : Prop :=
  exists q n r, nth_error ask p = Some q /\ consists cls (q_ty q) n r /\ trivial_destroy r = false.
Definition may_follow (cls : base -> traits) (ask : list qty) (l : list event) (e : event) : Prop :=
  match e with
  | Allocated p => True
  | Built p i => In (Allocated p) l /\ ~ In (Ended p i) l /\ ~ In (Freed p) l
  | Ended p i => In (Built p i) l /\ ~ In (Freed p) l
  | Freed p => In (Allocated p) l /\ forall i, needs_end cls ask p -> In (Built p i) l -> In (Ended p i) l
  end.
Record orderly (cls : base -> traits) (ask : list qty) (l : list event) : Prop := {
  orderly_once : NoDup l;
  orderly_order : forall l1 e l2, l = l1 ++ e :: l2 -> may_follow cls ask l1 e
}.
