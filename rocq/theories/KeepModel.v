(** Model of the definition builders as C++ objects, include/rtti/metadefine.h:836-1070: they are copied, kept in variables
    and used statement after statement; all copies share one stack of containers, which lives in the object that
    global_define() made (1055-1067) or in the invocation of a lazy definition (45-49).

    Simplified: the registry is a list of containers, a list of what is defined in them, of attributes and of bases; names are
    numbers, none of them is the empty name (see C31 for those); lazy definitions, default constructors of classes and
    base classes that are not registered are left out. Asserts are compiled out. *)
From Coq Require Import List Bool Arith.
Import ListNotations.

(** mcatNamespace, mcatClass, include/rtti/metaitem.h. *)
Inductive kind := Ns | Cl.
(** MetaItem::category compared, include/rtti/metaitem.h:18-27. *)
Definition kind_eqb (a b : kind) : bool := match a, b with Ns, Ns | Cl, Cl => true | _, _ => false end.

(** A container: its owner (None for the global namespace, src/private/metaitem_p.h:91-98), its name and category, and the
    type of a class (src/private/metaclass_p.h:118). *)
Record container := Container { c_owner : option nat; c_name : nat; c_kind : kind; c_type : option nat }.

(** What attributes are set on: a container or the enumeration defined last (m_currentItem, metadefine.h:999). *)
Inductive target := OnContainer (c : nat) | OnEnum (c n : nat).

(** The registry: containers in order of creation, the global namespace first; methods, properties, constructors and
    enumerations with the container they are in; attributes; bases.
    src/private/metacontainer_p.h:65-76, src/private/metaitem_p.h:47-50. *)
Record world := World {
  containers : list container; members : list (nat * nat); attributes : list (target * nat); bases : list (nat * nat)
}.

(** src/metanamespace.cpp:9-17. *)
Definition nothing_defined : world := World [Container None 0 Ns None] [] [] [].

(** Index of the first container that satisfies [f] (no line of /repo). *)
Fixpoint index (f : container -> bool) (l : list container) : option nat :=
  match l with
  | [] => None
  | x :: l' => if f x then Some 0 else option_map S (index f l')
  end.

(** getNamespace, getClass: src/metacontainer.cpp:54-65, 224-245. *)
Definition find_container (w : world) (c : nat) (k : kind) (n : nat) : option nat :=
  index (fun x => match c_owner x with Some o => (o =? c) && kind_eqb (c_kind x) k && (c_name x =? n) | None => false end)
    (containers w).
(** MetaClass::find, src/metaclass.cpp:44-48. *)
Definition find_type (w : world) (t : nat) : option nat :=
  index (fun x => match c_type x with Some u => u =? t | None => false end) (containers w).

(** MetaItemList::add, src/metacontainer.cpp:21-44. *)
Definition add_container (w : world) (x : container) : world :=
  World (containers w ++ [x]) (members w) (attributes w) (bases w).

(** MetaNamespace::create, src/metanamespace.cpp:25-38. *)
Definition create_namespace (w : world) (c n : nat) : world * nat :=
  match find_container w c Ns n with
  | Some i => (w, i)
  | None => (add_container w (Container (Some c) n Ns None), length (containers w))
  end.

(** MetaClass::create, src/metaclass.cpp:17-42; None: duplicate_metaclass. *)
Definition create_class (w : world) (c n t : nat) : option (world * nat) :=
  match find_container w c Cl n with
  | Some i => Some (w, i)
  | None => match find_type w t with
            | Some _ => None
            | None => Some (add_container w (Container (Some c) n Cl (Some t)), length (containers w))
            end
  end.

(** The members functions of meta_define: [Member] stands for _method, _property and _constructor (934-977), [Attribute] for
    _attribute and _element (842-849, 920-932). Lines of include/rtti/metadefine.h. *)
Inductive op :=
  Namespace (n : nat) | Class (n t : nat) | End | Member (n : nat) | Enum (n : nat) | Attribute (n : nat) | Base (t : nat).

(** A builder, meta_define<T, MB>: m_currentContainer, m_currentItem, which stack m_containerStack points to (999-1001), and
    its static type: the template arguments T, those of MB, and so on outwards ([] is meta_define<void, void> on the global
    namespace, or what a lazy definition is given). Of include/rtti/metadefine.h. *)
Record builder := Builder { at_container : nat; item : target; stack : nat; static : list kind }.

(** The registry, the stacks (None: destroyed), the variables, and the stack that lives in a variable.
    include/rtti/metadefine.h:999-1001, 1055-1067. *)
Record state := State {
  registry : world; stacks : list (option (list nat)); vars : nat -> option builder; owned : nat -> option nat
}.

(** How a call ends: it returns, it throws, undefined behaviour, or it does not compile. No line of /repo. *)
Inductive outcome (A : Type) := Fine (s : state) (a : A) | Threw (s : state) | Undefined | Refused.
Arguments Fine {A}. Arguments Threw {A}. Arguments Undefined {A}. Arguments Refused {A}.

(** A list with one element replaced, no line of /repo. *)
Fixpoint replace {A} (l : list A) (i : nat) (x : A) : list A :=
  match l, i with
  | [], _ => []
  | _ :: l', 0 => x :: l'
  | y :: l', S i' => y :: replace l' i' x
  end.

(** Update of the state, no line of /repo. *)
Definition with_registry (s : state) (w : world) : state := State w (stacks s) (vars s) (owned s).
(** Update of the state, no line of /repo. *)
Definition with_stack (s : state) (i : nat) (l : option (list nat)) : state :=
  State (registry s) (replace (stacks s) i l) (vars s) (owned s).
(** Update of the state, no line of /repo. *)
Definition with_var (s : state) (v : nat) (b : builder) : state :=
  State (registry s) (stacks s) (fun x => if x =? v then Some b else vars s x) (owned s).

(** The stack a builder points to, if it still exists. m_containerStack of include/rtti/metadefine.h:999-1001. *)
Definition stack_of (s : state) (b : builder) : option (list nat) :=
  match nth_error (stacks s) (stack b) with Some (Some l) => Some l | _ => None end.

(** Is the container a class; MetaContainer::category. include/rtti/metadefine.h:904, 938. *)
Definition is_class (w : world) (c : nat) : bool :=
  match nth_error (containers w) c with Some x => kind_eqb (c_kind x) Cl | None => false end.

(** One member function called on a builder. The result is the builder returned; the object itself is left with the same
    container and item, as they are assigned before the copy is made. Lines of include/rtti/metadefine.h. *)
Definition apply (s : state) (b : builder) (o : op) : outcome builder :=
  match o with
  | Namespace n =>                                                                             (* 851-860 *)
      match static b with Cl :: _ => Refused | _ =>                                            (* 853 *)
      match stack_of s b with
      | None => Undefined
      | Some l =>
          let s1 := with_stack s (stack b) (Some (at_container b :: l)) in                     (* 856 *)
          let '(w, c) := create_namespace (registry s) (at_container b) n in                   (* 857 *)
          Fine (with_registry s1 w) (Builder c (OnContainer c) (stack b) (Ns :: static b))     (* 858-859 *)
      end end
  | Class n t =>                                                                               (* 862-881 *)
      match stack_of s b with
      | None => Undefined
      | Some l =>
          let s1 := with_stack s (stack b) (Some (at_container b :: l)) in                     (* 871 *)
          match create_class (registry s) (at_container b) n t with                            (* 872-873 *)
          | None => Threw s1
          | Some (w, c) => Fine (with_registry s1 w) (Builder c (OnContainer c) (stack b) (Cl :: static b))
          end
      end
  | End =>                                                                                     (* 979-988 *)
      match static b with
      | [] => Refused                                                                          (* 981 *)
      | _ :: outer =>
          match stack_of s b with
          | Some (c :: l) => Fine (with_stack s (stack b) (Some l)) (Builder c (OnContainer c) (stack b) outer)
          | _ => Undefined
          end
      end
  | Member n =>
      Fine (with_registry s (World (containers (registry s)) (members (registry s) ++ [(at_container b, n)])
                               (attributes (registry s)) (bases (registry s)))) b
  | Enum n =>                                                                                  (* 912-918 *)
      Fine (with_registry s (World (containers (registry s)) (members (registry s) ++ [(at_container b, n)])
                               (attributes (registry s)) (bases (registry s))))
           (Builder (at_container b) (OnEnum (at_container b) n) (stack b) (static b))
  | Attribute n =>                                                                             (* 842-849 *)
      Fine (with_registry s (World (containers (registry s)) (members (registry s))
                               (attributes (registry s) ++ [(item b, n)]) (bases (registry s)))) b
  | Base t =>                                                                                  (* 900-910 *)
      match static b with
      | Cl :: _ =>
          if is_class (registry s) (at_container b)                                            (* static_cast, 907 *)
          then Fine (with_registry s (World (containers (registry s)) (members (registry s)) (attributes (registry s))
                                        (bases (registry s) ++ [(at_container b, t)]))) b
          else Undefined
      | _ => Refused
      end
  end.

(** Calls on the temporary that the call before returned. include/rtti/metadefine.h:836-1001. *)
Fixpoint chain (s : state) (b : builder) (ops : list op) : outcome builder :=
  match ops with
  | [] => Fine s b
  | o :: rest => match apply s b o with
                 | Fine s' b' => chain s' b' rest
                 | Threw s' => Threw s' | Undefined => Undefined | Refused => Refused
                 end
  end.

(** Statements: `auto g = global_define();`; `[auto d =] v.f().g() ...;` (with nothing called: a copy);
    `[auto d =] global_define().f().g() ...;`; the end of the scope of a variable.
    No line of /repo: the client's code, as in include/rtti/metadefine.h:1055-1067. *)
Inductive statement :=
  | Global (g : nat)
  | On (v : nat) (ops : list op) (d : option nat)
  | Chain (ops : list op) (d : option nat)
  | Leave (v : nat).

(** A variable of the client is initialised, no line of /repo. *)
Definition keep (s : state) (d : option nat) (b : builder) : state := match d with Some x => with_var s x b | None => s end.
(** The client has a variable of this name, no line of /repo. *)
Definition known (s : state) (d : option nat) : bool :=
  match d with Some x => match vars s x with Some _ => true | None => false end | None => false end.

(** The builder of global_define(), with a new stack, src/metadefine.cpp:5-9. *)
Definition new_stack (s : state) : state := State (registry s) (stacks s ++ [Some []]) (vars s) (owned s).
(** include/rtti/metadefine.h:1055-1062. *)
Definition global_builder (s : state) : builder := Builder 0 (OnContainer 0) (length (stacks s)) [].

(** One statement. What is called first on a variable changes the variable, the rest changes temporaries.
    include/rtti/metadefine.h:836-1067. *)
Definition execute (s : state) (x : statement) : outcome unit :=
  match x with
  | Global g =>
      if known s (Some g) then Refused else
      let s1 := with_var (new_stack s) g (global_builder s) in
      Fine (State (registry s1) (stacks s1) (vars s1) (fun y => if y =? g then Some (length (stacks s)) else owned s1 y)) tt
  | On v ops d =>
      match vars s v with
      | None => Refused
      | Some b =>
          if known s d then Refused else
          match ops with
          | [] => Fine (keep s d b) tt
          | o :: rest =>
              match apply s b o with
              | Fine s1 b1 =>
                  let s2 := with_var s1 v (Builder (at_container b1) (item b1) (stack b) (static b)) in
                  match chain s2 b1 rest with
                  | Fine s3 b3 => Fine (keep s3 d b3) tt
                  | Threw s3 => Threw s3 | Undefined => Undefined | Refused => Refused
                  end
              | Threw s1 => Threw s1 | Undefined => Undefined | Refused => Refused
              end
          end
      end
  | Chain ops d =>
      if known s d then Refused else
      match chain (new_stack s) (global_builder s) ops with
      | Fine s1 b => Fine (with_stack (keep s1 d b) (length (stacks s)) None) tt
      | Threw s1 => Threw (with_stack s1 (length (stacks s)) None)
      | Undefined => Undefined | Refused => Refused
      end
  | Leave v =>
      match owned s v with
      | Some i => Fine (with_stack (State (registry s) (stacks s) (fun y => if y =? v then None else vars s y) (owned s)) i None) tt
      | None => Fine (State (registry s) (stacks s) (fun y => if y =? v then None else vars s y) (owned s)) tt
      end
  end.

(** A program: statements in order, exceptions are caught around each (how many there were is the result). No line of /repo. *)
Fixpoint program (s : state) (l : list statement) : outcome nat :=
  match l with
  | [] => Fine s 0
  | x :: rest =>
      match execute s x with
      | Fine s' _ => program s' rest
      | Threw s' => match program s' rest with
                    | Fine s2 n => Fine s2 (S n)
                    | Threw s2 => Threw s2 | Undefined => Undefined | Refused => Refused
                    end
      | Undefined => Undefined
      | Refused => Refused
      end
  end.

(** Nothing defined, no builder (no line of /repo). *)
Definition fresh (w : world) : state := State w [] (fun _ => None) (fun _ => None).
