(** Model of the registrations when memory runs out: src/metacontainer.cpp:21-65, src/private/metaitem_p.h:52-70,
    src/metatype.cpp:77-93 and 335-346, src/metaclass.cpp:17-42 and 92-122, the create functions of the other items. Every
    allocation may fail; std::bad_alloc then leaves the function and the client catches it.

    Simplified: the lists of all containers are kept in one list, in the order of creation, those of one container and category
    are a filter of it; names are numbers, none of them empty; the several allocations in the constructor of an item are one, as
    what was allocated before is freed when a later one fails; push_back may always fail, although it only allocates when the
    capacity is exhausted; no lazy definitions, one thread. *)
From Coq Require Import List Bool Arith.
Import ListNotations.

(** MetaCategory, include/rtti/metaitem.h:18-27. *)
Inductive category := Namespace | Class | Property | Method | Enumeration | Constructor.
(** include/rtti/metaitem.h:18-27. *)
Definition category_eqb (a b : category) : bool :=
  match a, b with
  | Namespace, Namespace | Class, Class | Property, Property | Method, Method | Enumeration, Enumeration
  | Constructor, Constructor => true
  | _, _ => false
  end.

(** A container or item is an object (a number); MetaItemList::m_items, src/private/metacontainer_p.h:31. *)
Record entry := Entry { e_in : nat; e_category : category; e_name : nat; e_object : nat }.
(** named_variant, src/private/metaitem_p.h:16-27, with the item it belongs to. *)
Record attribute := Attr { a_item : nat; a_name : nat; a_value : nat; a_object : nat }.

(** The registry. [index] is m_names of all lists (metacontainer_p.h:32), [attr_index] m_names of NamedVariantList
    (metaitem_p.h:48), both from keys to positions in the list of the key; [types] is CustomTypes::m_names (metatype.cpp:38) and
    [infos] the number of elements of m_items (37); [links] is TypeInfo::metaClass; [bases] and [derived] are the lists of
    src/private/metaclass_p.h; [converters] is metatype.cpp:373; [heap] are the objects allocated and not freed. *)
Record state := State {
  entries : list entry; index : list (nat * category * nat * nat);
  attrs : list attribute; attr_index : list (nat * nat * nat);
  types : list (nat * nat); infos : nat; links : list (nat * nat);
  bases : list (nat * nat); derived : list (nat * nat); converters : list (nat * nat * nat);
  heap : list nat; next : nat
}.

(** Container 0 is the global namespace, nothing else exists. src/metanamespace.cpp:9-17. *)
Definition empty : state := State [] [] [] [] [] 0 [] [] [] [] [] 1.

(** Which allocations fail, in order; those not mentioned succeed (no line of /repo). *)
Definition oracle := list bool.

(** How a call ends: it returns a value, it throws bad_alloc, it throws another exception, or the exception meets a noexcept
    function and std::terminate is called.
    The functions are those cited in the header of this file: src/metacontainer.cpp:21-65, src/metatype.cpp:77-93. *)
Inductive result (A : Type) := Done (s : state) (a : A) | Bad (s : state) | Error (s : state) | Terminated.
Arguments Done {A}. Arguments Bad {A}. Arguments Error {A}. Arguments Terminated {A}.

(** The elements of one list. src/private/metacontainer_p.h:29-32. *)
Definition of_list (s : state) (c : nat) (k : category) : list entry :=
  filter (fun e => (e_in e =? c) && category_eqb (e_category e) k) (entries s).
(** m_items of src/private/metaitem_p.h:47-50. *)
Definition attrs_of (s : state) (x : nat) : list attribute := filter (fun a => a_item a =? x) (attrs s).

(** m_names.find. src/metacontainer.cpp:54-65. *)
Fixpoint position (l : list (nat * category * nat * nat)) (c : nat) (k : category) (n : nat) : option nat :=
  match l with
  | [] => None
  | (c', k', n', i) :: r => if (c' =? c) && category_eqb k' k && (n' =? n) then Some i else position r c k n
  end.
(** m_names.find of src/private/metaitem_p.h:60. *)
Fixpoint attr_position (l : list (nat * nat * nat)) (x n : nat) : option nat :=
  match l with
  | [] => None
  | (x', n', i) :: r => if (x' =? x) && (n' =? n) then Some i else attr_position r x n
  end.
(** A look-up in a list of pairs, no line of /repo. *)
Fixpoint assoc (l : list (nat * nat)) (x : nat) : option nat :=
  match l with [] => None | (y, v) :: r => if y =? x then Some v else assoc r x end.
(** Whether a class is among the bases of another one, src/metaclass.cpp:92-122. *)
Definition linked (l : list (nat * nat)) (a b : nat) : bool := existsb (fun p => (fst p =? a) && (snd p =? b)) l.

(** MetaItemList::get(name), metacontainer.cpp:54-65. *)
Definition get (s : state) (c : nat) (k : category) (n : nat) : option nat :=
  match position (index s) c k n with
  | Some i => option_map e_object (nth_error (of_list s c k) i)
  | None => None
  end.
(** MetaContainerPrivate::findMethod for complete signatures, metacontainer.cpp:85-126. *)
Definition find_method (s : state) (c : nat) (k : category) (n : nat) : option nat :=
  option_map e_object (find (fun e => e_name e =? n) (of_list s c k)).
(** getNamespace .. getConstructor by name, metacontainer.cpp:224-345. *)
Definition lookup (s : state) (c : nat) (k : category) (n : nat) : option nat :=
  match k with Method | Constructor => find_method s c k n | _ => get s c k n end.

(** operator new succeeds, no line of /repo. *)
Definition allocated (s : state) : state :=
  State (entries s) (index s) (attrs s) (attr_index s) (types s) (infos s) (links s) (bases s) (derived s) (converters s)
        (next s :: heap s) (S (next s)).
(** operator delete, no line of /repo. *)
Definition freed (s : state) (x : nat) : state :=
  State (entries s) (index s) (attrs s) (attr_index s) (types s) (infos s) (links s) (bases s) (derived s) (converters s)
        (remove Nat.eq_dec x (heap s)) (next s).
(** push_back, src/metacontainer.cpp:21-44. *)
Definition listed (s : state) (e : entry) : state :=
  State (entries s ++ [e]) (index s) (attrs s) (attr_index s) (types s) (infos s) (links s) (bases s) (derived s) (converters s)
        (heap s) (next s).
(** m_names.emplace, src/metacontainer.cpp:21-44. *)
Definition indexed (s : state) (c : nat) (k : category) (n i : nat) : state :=
  State (entries s) ((c, k, n, i) :: index s) (attrs s) (attr_index s) (types s) (infos s) (links s) (bases s) (derived s)
        (converters s) (heap s) (next s).
(** The class of a type is set, src/metaclass.cpp:17-42. *)
Definition linking (s : state) (t x : nat) : state :=
  State (entries s) (index s) (attrs s) (attr_index s) (types s) (infos s) ((t, x) :: links s) (bases s) (derived s)
        (converters s) (heap s) (next s).
(** Update of the members of src/private/metaitem_p.h:47-50. *)
Definition with_attrs (s : state) (l : list attribute) (i : list (nat * nat * nat)) : state :=
  State (entries s) (index s) l i (types s) (infos s) (links s) (bases s) (derived s) (converters s) (heap s) (next s).

(** The next allocation: does it fail, and what is left of the oracle. No line of /repo. *)
Definition fails (o : oracle) : bool := hd false o.

(** MetaItemList::add of a new object, metacontainer.cpp:21-44; [false]: the name is taken. *)
Definition add (s : state) (o : oracle) (c : nat) (k : category) (n x : nat) : result bool :=
  match position (index s) c k n with
  | Some _ => Done s false                                                                  (* 43 *)
  | None =>
      if fails o then Bad s                                                                 (* 38: the object is not owned yet *)
      else
        let s1 := listed s (Entry c k n x) in
        if fails (tl o) then Bad s1                                                         (* 39 *)
        else Done (indexed s1 c k n (length (of_list s c k))) true                          (* 37-40 *)
  end.

(** create of the six kinds of items: src/metanamespace.cpp:25-38, src/metaclass.cpp:17-42, src/metaproperty.cpp:15-32,
    src/metamethod.cpp:24-40, src/metaenum.cpp:10-23, src/metaconstructor.cpp:10-27. [t] is the type of a class, used for
    classes only. *)
Definition create (s : state) (o : oracle) (c : nat) (k : category) (n t : nat) : result (option nat) :=
  match lookup s c k n with
  | Some x => Done s (Some x)
  | None =>
      if category_eqb k Class && match assoc (links s) t with Some _ => true | None => false end
      then Error s                                                                          (* metaclass.cpp:27-30 *)
      else if fails o then Bad s                                                            (* new *)
      else
        let x := next s in
        match add (allocated s) (tl o) c k n x with
        | Done s1 true => Done (if category_eqb k Class then linking s1 t x else s1) (Some x)
        | Done s1 false => let s2 := freed s1 x in Done s2 (lookup s2 c k n)
        | Bad s1 => Bad s1
        | Error s1 => Error s1
        | Terminated => Terminated
        end
  end.

(** Replaces the value at position [i] among the attributes of [x]. item->value = value, src/private/metaitem_p.h:66-69. *)
Fixpoint assign (l : list attribute) (x i v : nat) : list attribute :=
  match l with
  | [] => []
  | a :: r => if a_item a =? x
              then match i with
                   | 0 => Attr x (a_name a) v (a_object a) :: r
                   | S i' => a :: assign r x i' v
                   end
              else a :: assign r x i v
  end.

(** NamedVariantList::set, metaitem_p.h:52-70: MetaItem::setAttribute and MetaEnum::addElement. *)
Definition set_attribute (s : state) (o : oracle) (x n v : nat) : result unit :=
  match attr_position (attr_index s) x n with
  | None =>
      if fails o then Bad s                                                                 (* 61: new named_variant *)
      else
        let s1 := allocated s in
        if fails (tl o) then Bad s1                                                         (* 61: emplace_back of the raw pointer *)
        else
          let s2 := with_attrs s1 (attrs s ++ [Attr x n v (next s)]) (attr_index s) in
          if fails (tl (tl o)) then Bad s2                                                  (* 62 *)
          else Done (with_attrs s2 (attrs s2) ((x, n, length (attrs_of s x)) :: attr_index s)) tt
  | Some i =>
      if fails o then Bad s                                                                 (* 68: a copy, then swap *)
      else Done (with_attrs s (assign (attrs s) x i v) (attr_index s)) tt
  end.

(** NamedVariantList::get(name), metaitem.cpp:22-32; None is the empty variant. *)
Definition get_attribute (s : state) (x n : nat) : option nat :=
  match attr_position (attr_index s) x n with
  | Some i => option_map a_value (nth_error (attrs_of s x) i)
  | None => None
  end.

(** CustomTypes::addTypeInfo, metatype.cpp:77-93; the identifiers are numbers from 1 on, an info that never got a name keeps its
    number. *)
Definition register (s : state) (o : oracle) (n : nat) : result nat :=
  match assoc (types s) n with
  | Some t => Done s t                                                                      (* 92 *)
  | None =>
      if fails o then Bad s                                                                 (* 87 *)
      else
        let t := S (infos s) in
        let s1 := State (entries s) (index s) (attrs s) (attr_index s) (types s) t (links s) (bases s) (derived s) (converters s)
                        (heap s) (next s) in
        if fails (tl o) then Bad s1                                                         (* 88 *)
        else Done (State (entries s) (index s) (attrs s) (attr_index s) ((n, t) :: types s) t (links s) (bases s) (derived s)
                         (converters s) (heap s) (next s)) t
  end.

(** MetaClass::addBaseClass of the class of type [d], metaclass.cpp:92-122; for types without class it throws. *)
Definition add_base (s : state) (o : oracle) (d b : nat) : result unit :=
  match assoc (links s) d, assoc (links s) b with
  | Some _, Some _ =>
      let there := linked (bases s) d b in
      if negb there && fails o then Bad s                                                   (* metaclass_p.h:59 *)
      else
        let o1 := if there then o else tl o in
        let s1 := State (entries s) (index s) (attrs s) (attr_index s) (types s) (infos s) (links s)
                        (if there then bases s else bases s ++ [(d, b)]) (derived s) (converters s) (heap s) (next s) in
        if linked (derived s) b d then Done s1 tt
        else if fails o1 then Bad s1                                                        (* metaclass_p.h:20 *)
        else Done (State (entries s) (index s) (attrs s) (attr_index s) (types s) (infos s) (links s) (bases s1)
                         (derived s ++ [(b, d)]) (converters s) (heap s) (next s)) tt
  | _, _ => Error s
  end.

(** MetaTypeFunctionList::add, metatype.cpp:335-346. *)
Fixpoint converter (l : list (nat * nat * nat)) (f t : nat) : option nat :=
  match l with
  | [] => None
  | (f', t', g) :: r => if (f' =? f) && (t' =? t) then Some g else converter r f t
  end.
(** MetaTypeFunctionList::add, src/metatype.cpp:335-346. *)
Definition add_converter (s : state) (o : oracle) (f t g : nat) : result bool :=
  match converter (converters s) f t with
  | Some _ => Done s false
  | None => if fails o then Bad s
            else Done (State (entries s) (index s) (attrs s) (attr_index s) (types s) (infos s) (links s) (bases s) (derived s)
                             ((f, t, g) :: converters s) (heap s) (next s)) true
  end.

(** hasConverter<From, To>() is noexcept and registers both types, include/rtti/metatype.h:770-774; the same holds for the
    functions of the table of a variant, include/rtti/detail/variant_impl.h:55-71. [From] is evaluated first. *)
Definition has_converter (s : state) (o : oracle) (f t : nat) : result bool :=
  match register s o f with
  | Done s1 i =>
      match register s1 (match assoc (types s) f with Some _ => o | None => tl (tl o) end) t with
      | Done s2 j => Done s2 (match converter (converters s2) i j with Some _ => true | None => false end)
      | _ => Terminated
      end
  | _ => Terminated
  end.

(** What a client calls.
    src/metacontainer.cpp:21-65, src/private/metaitem_p.h:52-70, src/metatype.cpp:77-93, 330-346, src/metaclass.cpp:92-122. *)
Inductive call :=
  | Create (c : nat) (k : category) (n t : nat)
  | Set_attribute (x n v : nat)
  | Register (n : nat)
  | Add_base (d b : nat)
  | Add_converter (f t g : nat)
  | Has_converter (f t : nat).

(** What a call returns: an object, a number, a truth value, nothing.
    As those functions do: src/metacontainer.cpp, src/metatype.cpp, src/metaclass.cpp. *)
Inductive value := VObject (x : option nat) | VType (t : nat) | VBool (b : bool) | VUnit.
(** No line of /repo. *)
Definition give {A} (f : A -> value) (r : result A) : result value :=
  match r with Done s a => Done s (f a) | Bad s => Bad s | Error s => Error s | Terminated => Terminated end.

(** One call of the functions cited at [call], src/metacontainer.cpp and others. *)
Definition perform (s : state) (x : call) (o : oracle) : result value :=
  match x with
  | Create c k n t => give VObject (create s o c k n t)
  | Set_attribute x n v => give (fun _ => VUnit) (set_attribute s o x n v)
  | Register n => give VType (register s o n)
  | Add_base d b => give (fun _ => VUnit) (add_base s o d b)
  | Add_converter f t g => give VBool (add_converter s o f t g)
  | Has_converter f t => give VBool (has_converter s o f t)
  end.

(** A run: calls one after the other, exceptions are caught; with every call how it ended. None: the program has been
    terminated. No line of /repo. *)
Inductive ending := Returned (v : value) | Out_of_memory | Other.
(** A client that catches every exception, no line of /repo. *)
Fixpoint run (s : state) (l : list (call * oracle)) : option (state * list (call * ending)) :=
  match l with
  | [] => Some (s, [])
  | (x, o) :: r =>
      let go s' e := match run s' r with Some (s2, h) => Some (s2, (x, e) :: h) | None => None end in
      match perform s x o with
      | Done s' v => go s' (Returned v)
      | Bad s' => go s' Out_of_memory
      | Error s' => go s' Other
      | Terminated => None
      end
  end.
