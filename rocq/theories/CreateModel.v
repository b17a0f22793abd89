(** Model of items being created by any number of threads: MetaNamespace::create (src/metanamespace.cpp:26-39),
    MetaEnum::create (src/metaenum.cpp:10-23), MetaClass::create (src/metaclass.cpp:17-42) and MetaClass::find
    (src/metaclass.cpp:44-48), as interleavings of their accesses to shared memory.

    Each access of a MetaItemList is one step, because it runs under the list's lock
    (src/metacontainer.cpp:22-66, checked sequentially in ListsModel.v).
    Left out: checkDeferredDefine of the owner (DeferModel.v); the containers have no lazy definition. *)
From Coq Require Import List Bool Arith String.
From Verif Require Import DeferModel.
Import ListNotations.

(** Which list of which container: the category picks the list (src/metacontainer.cpp:80-87). *)
Inductive category := CNamespace | CEnum | CClass.

(** List and name of an item (src/private/metacontainer_p.h:31-33). *)
Definition key : Type := category * nat * string.

(** Equality of categories, include/rtti/metaitem.h:18-27. *)
Definition category_eq (a b : category) : bool :=
  match a, b with CNamespace, CNamespace | CEnum, CEnum | CClass, CClass => true | _, _ => false end.

(** Equality, no line of /repo. *)
Definition key_eq (a b : key) : bool :=
  let '(c, o, n) := a in let '(c', o', n') := b in category_eq c c' && (o =? o') && String.eqb n n'.

(** The requests: a namespace, an enum or a class of type [ty] under [name] in container [owner]; a class by type.
    src/metanamespace.cpp:26-39, src/metaenum.cpp:10-23, src/metaclass.cpp:17-48. *)
Inductive request :=
| Namespace (owner : nat) (name : string)
| Enum (owner : nat) (name : string)
| Class (owner : nat) (name : string) (ty : nat)
| Find (ty : nat).

(** What a request returned: a pointer (possibly null) or duplicate_metaclass (src/metaclass.cpp:28-30). *)
Inductive answer := Got (a : option nat) | Duplicate.

Inductive place :=
| Idle                                          (* before the first getX(name), or find *)
| Check (k : key) (r : request) (ty : nat)      (* src/metaclass.cpp:27-30 *)
| Add (k : key) (r : request) (a : nat)         (* addItem of the new object [a] *)
| Link (r : request) (ty : nat) (a : nat)       (* src/metaclass.cpp:34 *)
| Again (k : key) (r : request).                (* the second getX(name) *)

(** [cells]: the items of all lists, oldest first. [table]: TypeInfo::metaClass (src/private/metatype_p.h:24),
    the latest store first. [next]: the allocator. [freed]: the objects deleted. *)
Record memory := Memory { cells : list (key * nat); table : list (nat * nat); next : nat; freed : list nat }.

(** No line of /repo: a thread, where it is, what it still has to do, what it was answered. *)
Record agent := Agent { at_ : place; todo : list request; got : list (request * answer) }.

(** m_names.find, src/metacontainer.cpp:54-65. *)
Fixpoint lookup_key (l : list (key * nat)) (k : key) : option nat :=
  match l with
  | [] => None
  | (k', a) :: l' => if key_eq k k' then Some a else lookup_key l' k
  end.

(** A look-up in a list of pairs, no line of /repo. *)
Fixpoint lookup_nat (l : list (nat * nat)) (n : nat) : option nat :=
  match l with
  | [] => None
  | (m, a) :: l' => if n =? m then Some a else lookup_nat l' n
  end.

(** MetaItemList::get (src/metacontainer.cpp:53-66): an empty name is never found. *)
Definition get (l : list (key * nat)) (k : key) : option nat :=
  let '(_, _, n) := k in if String.eqb n "" then None else lookup_key l k.

(** MetaItemList::add (src/metacontainer.cpp:22-43): refuses a name that is taken. The new object is in no list. *)
Definition add (l : list (key * nat)) (k : key) (a : nat) : option (list (key * nat)) :=
  match lookup_key l k with Some _ => None | None => Some (l ++ [(k, a)]) end.

(** One step of one thread. The allocation `new X{...}` is taken together with the step before it. *)
Definition step (m : memory) (t : agent) : memory * agent :=
  let answered r x := Agent Idle (todo t) (got t ++ [(r, x)]) in
  let grown := Memory (cells m) (table m) (S (next m)) (freed m) in
  match at_ t with
  | Idle =>
      match todo t with
      | [] => (m, t)
      | r :: rest =>
          let begin k (absent : memory * agent) :=
            match get (cells m) k with
            | Some a => (m, Agent Idle rest (got t ++ [(r, Got (Some a))]))
            | None => absent
            end in
          match r with
          | Namespace o n =>    (* src/metanamespace.cpp:28-31 *)
              begin (CNamespace, o, n) (grown, Agent (Add (CNamespace, o, n) r (next m)) rest (got t))
          | Enum o n =>         (* src/metaenum.cpp:12-15 *)
              begin (CEnum, o, n) (grown, Agent (Add (CEnum, o, n) r (next m)) rest (got t))
          | Class o n ty =>     (* src/metaclass.cpp:21-22 *)
              begin (CClass, o, n) (m, Agent (Check (CClass, o, n) r ty) rest (got t))
          | Find ty =>          (* src/metaclass.cpp:44-48 *)
              (m, Agent Idle rest (got t ++ [(r, Got (lookup_nat (table m) ty))]))
          end
      end
  | Check k r ty =>             (* src/metaclass.cpp:27-32 *)
      match lookup_nat (table m) ty with
      | Some _ => (m, answered r Duplicate)
      | None => (grown, Agent (Add k r (next m)) (todo t) (got t))
      end
  | Add k r a =>                (* src/metanamespace.cpp:32-36, src/metaenum.cpp:16-20, src/metaclass.cpp:33-39 *)
      match add (cells m) k a with
      | Some l =>
          (Memory l (table m) (next m) (freed m),
           match r with
           | Class _ _ ty => Agent (Link r ty a) (todo t) (got t)
           | _ => answered r (Got (Some a))
           end)
      | None => (Memory (cells m) (table m) (next m) (a :: freed m), Agent (Again k r) (todo t) (got t))
      end
  | Link r ty a => (Memory (cells m) ((ty, a) :: table m) (next m) (freed m), answered r (Got (Some a)))
  | Again k r => (m, answered r (Got (get (cells m) k)))
  end.

(** The scheduler lets thread [i] make one step (no line of /repo). *)
Definition turn (c : memory * list agent) (i : nat) : memory * list agent :=
  match nth_error (snd c) i with
  | None => c
  | Some t => let '(m', t') := step (fst c) t in (m', put (snd c) i t')
  end.

(** An execution follows a schedule (no line of /repo). *)
Definition exec (c : memory * list agent) (schedule : list nat) : memory * list agent := fold_left turn schedule c.

(** Empty containers, no class registered, the threads about to begin. No line of /repo. *)
Definition start (programs : list (list request)) : memory * list agent :=
  (Memory [] [] 0 [], map (fun l => Agent Idle l []) programs).
