(** Model of the whole registry on one thread: containers with their item lists, deferred definitions,
    definition programs (the meta_define chain), look-ups that trigger definitions, traversals and the
    reader/writer locks of the lists. Queries and definitions may be nested in deferred definitions and in
    visitors to any depth. Asserts are taken as compiled out (NDEBUG).
    Simplifications: attribute values, enum values and invokers are opaque numbers; type ids are numbers and
    always valid, since metaTypeId<T>() registers T before giving its id (C04); converters registered by
    constructors are in RegistryModel.v (C06); other threads are in DeferModel.v and CreateModel.v. *)
From Coq Require Import List Bool Arith String Ascii.
From Verif Require Import RegistryModel ListsModel StringsModel.
Import ListNotations.

(** include/rtti/metaitem.h:12-21 [MetaCategory] of items in containers. *)
Inductive cat := Namespace | Class | Property | Method | Enum | Constructor.
(** Comparison of MetaCategory, include/rtti/metaitem.h:13-22. *)
Definition cat_eqb (a b : cat) : bool :=
  match a, b with
  | Namespace, Namespace | Class, Class | Property, Property
  | Method, Method | Enum, Enum | Constructor, Constructor => true
  | _, _ => false
  end.
(** Only namespaces and classes are MetaContainers.
    include/rtti/metacontainer.h:33, include/rtti/metaclass.h:19, include/rtti/metanamespace.h:10. *)
Definition is_container (c : cat) : bool := match c with Namespace | Class => true | _ => false end.

(** Argument lists of constructors: none, one of the class itself (rvalue reference or not), others.
    Template arguments of _constructor, include/rtti/metadefine.h:934-942, 1024-1040. *)
Inductive cargs := A0 | ASelf (rvalue : bool) | AOther (types : list text).

(** What can be asked of a list of attributes (src/metaitem.cpp:98-124) or elements (src/metaenum.cpp:36-58): how many there
    are, the value or name at a position, the value under a name. *)
Inductive nvq := QCount | QAt (i : nat) | QNameAt (i : nat) | QOf (n : string).
(** Their results: std::size_t, variant or std::string, src/metaitem.cpp:98-124, src/metaenum.cpp:36-58. *)
Inductive nva := ACount (n : nat) | AValue (v : nat) | AName (n : string).

(** What user code can do. Chained calls on meta_define ([K...] up to [KEnd]); user code inside a deferred
    definition or between definitions: throwing, another global_define() chain (maybe inside try/catch), and
    queries. A query names the container by address, standing for a pointer obtained before; the address is
    checked, so that programs cannot make up objects.
    include/rtti/metadefine.h:842-988 for the chained calls, src/metaitem.cpp, src/metacontainer.cpp, src/metaclass.cpp and src/metaenum.cpp for the queries. *)
Inductive cmd :=
| KAttr (n : string) (v : nat)
| KNamespace (n : string)
| KClass (n : string) (t : nat) (d c m : bool)
| KLazy (p : list cmd)
| KBase (l : list (nat * nat))
| KEnum (n : string) (t : nat)
| KElement (n : string) (v : nat)
| KCtor (n : string) (args : cargs) (inv : nat)
| KMethod (n : string) (args : list text) (inv : nat)
| KProperty (n : string) (inv : nat)
| KEnd
| KThrow
| KUse (catch : bool) (p : list cmd)
| KItem (a : nat) (c : cat) (n : string)
| KIndex (a : nat) (c : cat) (i : nat)
| KCount (a : nat) (c : cat)
| KGetMethod (a : nat) (n : string)
| KGetProperty (a : nat) (n : string)
| KGetCtor (a : nat) (n : string)
| KBases (a : nat)
| KInherited (a b : nat)
| KForce (a : nat) (recursive : bool)
| KEach (a : nat) (c : cat) (visitor : list (list cmd))
| KDerived (a : nat)
| KCast (a b : nat)
| KAttrs (a : nat) (q : nvq)
| KElems (a : nat) (q : nvq)
| KEachAttr (a : nat) (visitor : list (list cmd))
| KEachElem (a : nat) (visitor : list (list cmd)).
(** User code, calls in order: include/rtti/metadefine.h:842-988. *)
Definition prog := list cmd.

(** An item: src/private/metaitem_p.h:85-125, metacontainer_p.h:50-86, metaclass_p.h:109-125,
    metaenum_p.h. [i_set], [i_begun], [i_done] count deferred definitions accepted, started and finished;
    they are not in the code and nothing depends on them. *)
Record item := Item {
  i_cat : cat; i_name : string; i_owner : option nat; i_inv : nat;
  i_attrs : @nvlist nat; i_elems : @nvlist nat;
  i_list : cat -> milist;
  i_def : option prog; i_lock : bool;
  i_set : nat; i_begun : nat; i_done : nat;
  i_type : nat; i_bases : list (nat * nat); i_derived : list nat }.

(** The mutexes of an item: of its list of one category (src/private/metacontainer_p.h:31), of its base classes
    (metaclass_p.h:93), attributes and elements (metaitem_p.h:47, 123, metaenum_p.h). That of the derived classes
    (metaclass_p.h:45) is never held while other code runs. *)
Inductive lock := LList (c : cat) | LBases | LAttrs | LElems.

(** The registry. [w_class]: TypeInfo::metaClass by type id (src/private/metatype_p.h). [w_held]: the list
    locks this thread holds shared; [w_relock]: whether it ever took a shared lock it already held. *)
Record world := World {
  w_items : list item; w_class : list (nat * nat); w_held : list (nat * lock); w_relock : bool }.

(** include/rtti/metaerror.h:17-33, src/metacontainer.cpp:203-222. *)
Inductive exn := Duplicate | Unregistered | Redefinition | OutOfRange | User.

(** [Rejected]: the program would not compile. [Deadlock]: a lock wanted exclusively is held by this thread.
    The mutexes: src/private/metaitem_p.h:47, metacontainer_p.h:31, metaclass_p.h:45, 93. The exceptions: include/rtti/metaerror.h:10-75. *)
Inductive out (A : Type) :=
| Ret (w : world) (x : A) | Throw (e : exn) (w : world) | UB | Deadlock | Rejected | Fuel.
Arguments Ret {A}. Arguments Throw {A}. Arguments UB {A}. Arguments Deadlock {A}.
Arguments Rejected {A}. Arguments Fuel {A}.

(** One call after another; an exception or worse ends the rest. Sequencing of C++, no counterpart in /repo. *)
Definition bind {A B} (o : out A) (f : world -> A -> out B) : out B :=
  match o with
  | Ret w x => f w x
  | Throw e w => Throw e w
  | UB => UB | Deadlock => Deadlock | Rejected => Rejected | Fuel => Fuel
  end.

(** *** State access *)

(** The item behind a MetaItem pointer, src/private/metacontainer_p.h:32. Simplified: pointers are numbers, items are never freed. *)
Definition get (w : world) (a : nat) : option item := nth_error (w_items w) a.
(** Assignment in memory, no counterpart in /repo. *)
Fixpoint replace {A} (a : nat) (x : A) (l : list A) : list A :=
  match l, a with
  | [], _ => []
  | _ :: l', 0 => x :: l'
  | y :: l', S a' => y :: replace a' x l'
  end.
(** Assignment in memory, no counterpart in /repo. *)
Definition put (w : world) (a : nat) (it : item) : world :=
  World (replace a it (w_items w)) (w_class w) (w_held w) (w_relock w).
(** Apply [f] to the item at [a]. Assignment in memory, no counterpart in /repo. *)
Definition upd (w : world) (a : nat) (f : item -> item) : world :=
  match get w a with Some it => put w a (f it) | None => w end.
(** The name of the item, src/private/metaitem_p.h:107-108. *)
Definition names (w : world) (a : nat) : string := match get w a with Some it => i_name it | None => ""%string end.
(** MetaClass::find by type, src/metaclass.cpp:44-48. *)
Definition class_of (w : world) (t : nat) : option nat := assoc Nat.eqb t (w_class w).

(** Assignment to one of the lists of a container, src/private/metacontainer_p.h:65-74. *)
Definition set_list (c : cat) (l : milist) (it : item) : item :=
  Item (i_cat it) (i_name it) (i_owner it) (i_inv it) (i_attrs it) (i_elems it)
       (fun c' => if cat_eqb c c' then l else i_list it c')
       (i_def it) (i_lock it) (i_set it) (i_begun it) (i_done it) (i_type it) (i_bases it) (i_derived it).
(** Assignment to m_attributes, src/private/metaitem_p.h:118. *)
Definition set_attrs (l : @nvlist nat) (it : item) : item :=
  Item (i_cat it) (i_name it) (i_owner it) (i_inv it) l (i_elems it) (i_list it)
       (i_def it) (i_lock it) (i_set it) (i_begun it) (i_done it) (i_type it) (i_bases it) (i_derived it).
(** Assignment to m_elements, src/private/metaenum_p.h:20. *)
Definition set_elems (l : @nvlist nat) (it : item) : item :=
  Item (i_cat it) (i_name it) (i_owner it) (i_inv it) (i_attrs it) l (i_list it)
       (i_def it) (i_lock it) (i_set it) (i_begun it) (i_done it) (i_type it) (i_bases it) (i_derived it).
(** Assignment to m_baseClasses, src/private/metaclass_p.h:119. *)
Definition set_bases (l : list (nat * nat)) (it : item) : item :=
  Item (i_cat it) (i_name it) (i_owner it) (i_inv it) (i_attrs it) (i_elems it) (i_list it)
       (i_def it) (i_lock it) (i_set it) (i_begun it) (i_done it) (i_type it) l (i_derived it).
(** Assignment to m_derivedClasses, src/private/metaclass_p.h:120. *)
Definition set_derived (l : list nat) (it : item) : item :=
  Item (i_cat it) (i_name it) (i_owner it) (i_inv it) (i_attrs it) (i_elems it) (i_list it)
       (i_def it) (i_lock it) (i_set it) (i_begun it) (i_done it) (i_type it) (i_bases it) l.
(** src/metacontainer.cpp:150. *)
Definition accept_def (p : prog) (it : item) : item :=
  Item (i_cat it) (i_name it) (i_owner it) (i_inv it) (i_attrs it) (i_elems it) (i_list it)
       (Some p) (i_lock it) (S (i_set it)) (i_begun it) (i_done it) (i_type it) (i_bases it) (i_derived it).
(** src/metacontainer.cpp:158, the exchange that succeeds. *)
Definition begin_def (it : item) : item :=
  Item (i_cat it) (i_name it) (i_owner it) (i_inv it) (i_attrs it) (i_elems it) (i_list it)
       (i_def it) true (i_set it) (S (i_begun it)) (i_done it) (i_type it) (i_bases it) (i_derived it).
(** src/metacontainer.cpp:161-164, the FINALLY block. *)
Definition end_def (it : item) : item :=
  Item (i_cat it) (i_name it) (i_owner it) (i_inv it) (i_attrs it) (i_elems it) (i_list it)
       None false (i_set it) (i_begun it) (S (i_done it)) (i_type it) (i_bases it) (i_derived it).
(** A new item (the constructors of the Private classes).
    src/private/metaitem_p.h:94-102, metaclass_p.h:112-115, metaenum_p.h:13-16, metamethod_p.h:12-16, metaproperty_p.h:12-16. *)
Definition fresh (c : cat) (n : string) (o : option nat) (t inv : nat) : item :=
  Item c n o inv (@nv0 nat) (@nv0 nat) (fun _ => ml0) None false 0 0 0 t [] [].

(** src/metanamespace.cpp:9-17: the registry at start, the global namespace at address 0. *)
Definition world0 : world := World [fresh Namespace "global" None 0 0] [] [] false.

(** *** Locks *)

(** Which mutex: src/private/metaitem_p.h:47, metacontainer_p.h:31, metaclass_p.h:45, 93. *)
Definition lock_eqb (x y : nat * lock) : bool :=
  Nat.eqb (fst x) (fst y) &&
  match snd x, snd y with
  | LList c, LList c' => cat_eqb c c'
  | LBases, LBases | LAttrs, LAttrs | LElems, LElems => true
  | _, _ => false
  end.
(** Whether this thread holds the mutex; bookkeeping, no counterpart in /repo. *)
Definition holds (w : world) (l : nat * lock) : bool := existsb (lock_eqb l) (w_held w).
(** A momentary std::shared_lock. src/private/metaitem_p.h:39, src/metacontainer.cpp:48, 59, 69. *)
Definition touch (w : world) (l : nat * lock) : world :=
  World (w_items w) (w_class w) (w_held w) (w_relock w || holds w l).
(** The std::shared_lock of a for_each (metacontainer_p.h:39, metaclass_p.h:100, metaitem_p.h:75) and its release. *)
Definition acquire (w : world) (l : nat * lock) : world :=
  World (w_items w) (w_class w) (l :: w_held w) (w_relock w || holds w l).
(** The destructor of the std::shared_lock, src/private/metacontainer_p.h:45, metaclass_p.h:106, metaitem_p.h:81. *)
Definition release (w : world) : world := World (w_items w) (w_class w) (tl (w_held w)) (w_relock w).
(** A scope that holds the lock, left normally or by an exception. As in src/private/metacontainer_p.h:39-45. *)
Definition holding {A} (w : world) (l : nat * lock) (body : world -> out A) : out A :=
  match body (acquire w l) with
  | Ret w' x => Ret (release w') x
  | Throw e w' => Throw e (release w')
  | o => o
  end.

Section WithRun.
  (** Invokes a deferred definition on a container (include/rtti/metadefine.h:45-49). *)
  Variable run : world -> nat -> prog -> out unit.
  (** Depth allowed for recursion through base classes and through nested containers. *)
  Variable k : nat.
  (** [okbase t b]: metacast_to_base<T, B> (include/rtti/metadefine.h:25-32) compiles. *)
  Variable okbase : nat -> nat -> bool.

  (** src/metacontainer.cpp:153-167. *)
  Definition check (w : world) (a : nat) : out unit :=
    match get w a with
    | None => UB
    | Some it =>
        match i_def it with
        | None => Ret w tt
        | Some p =>
            if i_lock it then Ret w tt
            else
              match run (upd w a begin_def) a p with
              | Ret w' _ => Ret (upd w' a end_def) tt
              | Throw e w' => Throw e (upd w' a end_def)
              | o => o
              end
        end
    end.

  (** m_lists[category], src/private/metacontainer_p.h:71-74. *)
  Definition list_of (w : world) (a : nat) (c : cat) : milist :=
    match get w a with Some it => i_list it c | None => ml0 end.

  (** src/metacontainer.cpp:210-215, [item(category, name)]. *)
  Definition get_item (w : world) (a : nat) (c : cat) (n : string) : out (option nat) :=
    bind (check w a) (fun w _ => Ret (touch w (a, LList c)) (ml_find (list_of w a c) n)).
  (** src/metacontainer.cpp:217-222. *)
  Definition get_index (w : world) (a : nat) (c : cat) (i : nat) : out (option nat) :=
    bind (check w a) (fun w _ => Ret (touch w (a, LList c)) (ml_get (list_of w a c) i)).
  (** src/metacontainer.cpp:203-208. *)
  Definition get_count (w : world) (a : nat) (c : cat) : out nat :=
    bind (check w a) (fun w _ => Ret (touch w (a, LList c)) (ml_size (list_of w a c))).
  (** src/metacontainer.cpp:315-319 and 279-283: getMethodInternal / getConstructor of a container. *)
  Definition find_method (w : world) (a : nat) (c : cat) (n : string) : out (option nat) :=
    bind (check w a) (fun w _ =>
      match findMethod (fun x => txt (names w x)) (ml_items (list_of w a c)) (txt n) with
      | FNone => Ret (touch w (a, LList c)) None
      | FSome x => Ret (touch w (a, LList c)) (Some x)
      | FThrow => Throw OutOfRange (touch w (a, LList c))
      end).

  (** The recursion of src/metaclass.cpp:123-145, 181-207, 209-235: the class's own answer, else the first
      answer of its bases, whose list is locked meanwhile. *)
  Section Dfs.
    Context {R : Type}.
    Variable own : world -> nat -> out (option R).
    (** src/metaclass.cpp:123-145, 181-207, 209-235. [own] is what each of them asks of one class; [k] bounds the depth of the hierarchy. *)
    Fixpoint dfs (k : nat) (w : world) (a : nat) : out (option R) :=
      match k with
      | O => Fuel
      | S k' =>
          bind (own w a) (fun w1 r =>
            match r with
            | Some x => Ret w1 (Some x)
            | None =>
                match get w1 a with
                | None => UB
                | Some it =>
                    holding w1 (a, LBases) (fun w2 =>
                      (fix loop (w : world) (l : list (nat * nat)) : out (option R) :=
                         match l with
                         | [] => Ret w None
                         | (t, _) :: l' =>
                             match class_of w t with
                             | None => UB
                             | Some b =>
                                 bind (dfs k' w b) (fun w' r =>
                                   match r with Some x => Ret w' (Some x) | None => loop w' l' end)
                             end
                         end) w2 (i_bases it))
                end
            end)
      end.
  End Dfs.

  (** src/metacontainer.cpp:321-326 and src/metaclass.cpp:181-207 (virtual). *)
  Definition get_method (w : world) (a : nat) (n : string) : out (option nat) :=
    if (n =? "")%string then Ret w None else
    match get w a with
    | None => UB
    | Some it =>
        if cat_eqb (i_cat it) Class then dfs (fun w a => find_method w a Method n) k w a
        else find_method w a Method n
    end.
  (** src/metacontainer.cpp:355-363 and src/metaclass.cpp:209-235 (virtual). *)
  Definition get_property (w : world) (a : nat) (n : string) : out (option nat) :=
    match get w a with
    | None => UB
    | Some it =>
        if cat_eqb (i_cat it) Class then
          if (n =? "")%string then Ret w None else dfs (fun w a => get_item w a Property n) k w a
        else get_item w a Property n
    end.
  (** src/metaclass.cpp:123-145. *)
  Definition inherited (w : world) (a b : nat) : out bool :=
    bind (dfs (fun w x => if x =? b then Ret w (Some tt) else bind (check w x) (fun w _ => Ret w None)) k w a)
         (fun w r => Ret w (match r with Some _ => true | None => false end)).
  (** src/metaclass.cpp:62-75. *)
  Definition bases_query (w : world) (a : nat) : out (list (nat * nat)) :=
    bind (check w a) (fun w _ =>
      match get w a with None => UB | Some it => Ret (touch w (a, LBases)) (i_bases it) end).

  (** src/metaclass.cpp:77-90. *)
  Definition derived_query (w : world) (a : nat) : out (list nat) :=
    bind (check w a) (fun w _ => match get w a with None => UB | Some it => Ret w (i_derived it) end).
  (** src/metaclass.cpp:147-174. The answer: the functions that convert the address, in the order they are called. *)
  Fixpoint cast_to (j : nat) (w : world) (a b : nat) : out (option (list nat)) :=
    match j with
    | O => Fuel
    | S j' =>
        if a =? b then Ret w (Some [])
        else bind (check w a) (fun w1 _ =>
          match get w1 a with
          | None => UB
          | Some it =>
              holding w1 (a, LBases) (fun w2 =>
                (fix loop (w : world) (l : list (nat * nat)) : out (option (list nat)) :=
                   match l with
                   | [] => Ret w None
                   | (t, f) :: l' =>
                       match class_of w t with
                       | None => UB
                       | Some d =>
                           bind (inherited w d b) (fun w' r =>
                             if r then bind (cast_to j' w' d b) (fun w'' p => Ret w'' (option_map (cons f) p))
                             else loop w' l')
                       end
                   end) w2 (i_bases it))
          end)
    end.

  (** *** Attributes and elements *)

  (** checkDeferredDefine is virtual: src/metaitem.cpp:77-78 for items that are no containers. *)
  Definition check_item (w : world) (a : nat) : out unit :=
    match get w a with
    | None => UB
    | Some it => if is_container (i_cat it) then check w a else Ret w tt
    end.
  (** src/metaitem.cpp:13-39, src/private/metaitem_p.h:37-41 (value 0: the empty variant). *)
  Definition nv_ask (l : @nvlist nat) (q : nvq) : nva :=
    match q with
    | QCount => ACount (nv_size l)
    | QAt i => AValue (nv_get 0 l i)
    | QNameAt i => AName (nv_name l i)
    | QOf n => AValue (nv_find 0 l n)
    end.
  (** src/metaitem.cpp:98-124. *)
  Definition attr_query (w : world) (a : nat) (q : nvq) : out nva :=
    bind (check_item w a) (fun w _ =>
      match get w a with None => UB | Some it => Ret (touch w (a, LAttrs)) (nv_ask (i_attrs it) q) end).
  (** src/metaenum.cpp:36-58. *)
  Definition elem_query (w : world) (a : nat) (q : nvq) : out nva :=
    match get w a with None => UB | Some it => Ret (touch w (a, LElems)) (nv_ask (i_elems it) q) end.
  (** src/private/metaitem_p.h:72-81: the visitor runs once per entry until it has no more. *)
  Fixpoint visit (body : world -> prog -> out unit) (w : world) (n : nat) (vs : list prog) : out unit :=
    match n, vs with
    | S n', v :: vs' => bind (body w v) (fun w' _ => visit body w' n' vs')
    | _, _ => Ret w tt
    end.
  (** src/metaitem.cpp:126-137. *)
  Definition each_attr (body : world -> prog -> out unit) (w : world) (a : nat) (vs : list prog) : out unit :=
    bind (check_item w a) (fun w1 _ =>
      match get w1 a with
      | None => UB
      | Some it => holding w1 (a, LAttrs) (fun w2 => visit body w2 (nv_size (i_attrs it)) vs)
      end).
  (** src/metaenum.cpp:60-70. *)
  Definition each_elem (body : world -> prog -> out unit) (w : world) (a : nat) (vs : list prog) : out unit :=
    match get w a with
    | None => UB
    | Some it => holding w (a, LElems) (fun w2 => visit body w2 (nv_size (i_elems it)) vs)
    end.

  (** *** Adding items *)

  (** src/metacontainer.cpp:197-201 and 21-44 on a newly made item, which is deleted again when refused. *)
  Inductive added := Added (w : world) (id : nat) | Refused | Blocked.
  (** src/metacontainer.cpp:197-201, 21-44. *)
  Definition add_new (w : world) (o : nat) (it : item) : added :=
    let id := List.length (w_items w) in
    let w1 := World (w_items w ++ [it]) (w_class w) (w_held w) (w_relock w) in
    if holds w (o, LList (i_cat it)) then Blocked
    else
      match ml_add (names w1) (list_of w o (i_cat it)) (Some id) with
      | (l, true) => Added (upd w1 o (set_list (i_cat it) l)) id
      | (_, false) => Refused
      end.

  (** The shape of all create functions: src/metanamespace.cpp:25-38, src/metaenum.cpp:10-23,
      src/metaproperty.cpp:15-32, src/metamethod.cpp:22-40, src/metaconstructor.cpp:10-28. *)
  Definition create (lookup : world -> out (option nat)) (o : nat) (it : item) (w : world) : out (option nat) :=
    bind (lookup w) (fun w1 r =>
      match r with
      | Some x => Ret w1 (Some x)
      | None =>
          match add_new w1 o it with
          | Added w2 id => Ret w2 (Some id)
          | Refused => lookup w1
          | Blocked => Deadlock
          end
      end).

  (** src/metanamespace.cpp:25-38. *)
  Definition create_namespace (w : world) (o : nat) (n : string) : out (option nat) :=
    create (fun w => get_item w o Namespace n) o (fresh Namespace n (Some o) 0 0) w.
  (** src/metaenum.cpp:10-23. *)
  Definition create_enum (w : world) (o : nat) (n : string) (t : nat) : out (option nat) :=
    create (fun w => get_item w o Enum n) o (fresh Enum n (Some o) t 0) w.
  (** src/metaproperty.cpp:15-32; the invoker is never null (metadefine.h:960, 972). *)
  Definition create_property (w : world) (o : nat) (n : string) (inv : nat) : out (option nat) :=
    if (n =? "")%string then Ret w None
    else create (fun w => get_property w o n) o (fresh Property n (Some o) 0 inv) w.
  (** Character lists and strings are the same std::string, src/metamethod.cpp:22-40. *)
  Definition str (t : text) : string := string_of_list_ascii t.
  (** src/metamethod.cpp:22-40. *)
  Definition create_method (w : world) (o : nat) (n : string) (args : list text) (inv : nat) : out (option nat) :=
    let sig := str (signature (txt n) args) in
    create (fun w => get_method w o sig) o (fresh Method sig (Some o) 0 inv) w.
  (** include/rtti/metacontainer.h:13-16 and include/rtti/metadefine.h:556-583. *)
  Definition ctor_signature (n : string) (args : cargs) : string :=
    match args with
    | A0 => "d_constructor"
    | ASelf true => "m_constructor"
    | ASelf false => "c_constructor"
    | AOther l => str (signature (txt n) l)
    end.
  (** src/metaconstructor.cpp:10-28. *)
  Definition create_ctor (w : world) (o : nat) (n : string) (args : cargs) (inv : nat) : out (option nat) :=
    let sig := ctor_signature (if (n =? "")%string then "constructor" else n) args in
    create (fun w => find_method w o Constructor sig) o (fresh Constructor sig (Some o) 0 inv) w.
  (** src/metaclass.cpp:17-42. *)
  Definition create_class (w : world) (o : nat) (n : string) (t : nat) : out (option nat) :=
    bind (get_item w o Class n) (fun w1 r =>
      match r with
      | Some x => Ret w1 (Some x)
      | None =>
          match class_of w1 t with
          | Some _ => Throw Duplicate w1
          | None =>
              match add_new w1 o (fresh Class n (Some o) t 0) with
              | Added w2 id => Ret (World (w_items w2) (w_class w2 ++ [(t, id)]) (w_held w2) (w_relock w2)) (Some id)
              | Refused => get_item w1 o Class n
              | Blocked => Deadlock
              end
          end
      end).

  (** src/metaclass.cpp:92-121 with src/private/metaclass_p.h:14-20, 55-60. *)
  Definition add_base (w : world) (a t caster : nat) : out unit :=
    match class_of w t with
    | None => Throw Unregistered w
    | Some b =>
        match get w a with
        | None => UB
        | Some it =>
            if holds w (a, LBases) then Deadlock
            else
              let w1 := if existsb (fun x => Nat.eqb t (fst x)) (i_bases it) then w
                        else upd w a (set_bases (i_bases it ++ [(t, caster)])) in
              match class_of w1 (i_type it) with
              | None => Throw Unregistered w1
              | Some _ =>
                  match get w1 b with
                  | None => UB
                  | Some bt =>
                      if existsb (Nat.eqb (i_type it)) (i_derived bt) then Ret w1 tt
                      else Ret (upd w1 b (set_derived (i_derived bt ++ [i_type it]))) tt
                  end
              end
        end
    end.

  (** src/metacontainer.cpp:144-151. *)
  Definition set_deferred (w : world) (a : nat) (p : prog) : out unit :=
    match get w a with
    | None => UB
    | Some it => match i_def it with Some _ => Throw Redefinition w | None => Ret (upd w a (accept_def p)) tt end
    end.

  (** src/metacontainer.cpp:169-191; the static_casts there assume what the lists hold. *)
  Fixpoint force (k : nat) (recursive : bool) (w : world) (a : nat) : out unit :=
    match k with
    | O => Fuel
    | S k' =>
        bind (check w a) (fun w1 _ =>
          if recursive then
            let loop := fix loop (w : world) (l : list nat) : out unit :=
              match l with [] => Ret w tt | x :: l' => bind (force k' true w x) (fun w' _ => loop w' l') end in
            bind (holding w1 (a, LList Class) (fun w => loop w (ml_items (list_of w1 a Class)))) (fun w2 _ =>
              holding w2 (a, LList Namespace) (fun w => loop w (ml_items (list_of w2 a Namespace))))
          else Ret w1 tt)
    end.

  (** src/metacontainer.cpp:262-273, 338-349: for_each_class, for_each_method. The visitor is the user code it
      runs for each item; it asks to stop when it has no more. *)
  Definition each (body : world -> prog -> out unit) (w : world) (a : nat) (c : cat) (vs : list prog) : out unit :=
    bind (check w a) (fun w1 _ =>
      holding w1 (a, LList c) (fun w2 =>
        (fix loop (w : world) (l : list nat) (vs : list prog) : out unit :=
           match l, vs with
           | _ :: l', v :: vs' => bind (body w v) (fun w' _ => loop w' l' vs')
           | _, _ => Ret w tt
           end) w2 (ml_items (list_of w1 a c)) vs)).

  (** *** The builder *)

  (** include/rtti/metadefine.h:991-1001. *)
  Record builder := Builder { b_item : option nat; b_cont : option nat; b_stack : list (option nat) }.

  (** MetaItem::category, include/rtti/metaitem.h:40. *)
  Definition category (w : world) (a : nat) : option cat := option_map i_cat (get w a).

  (** A query is only possible on an existing container (a MetaContainer or MetaClass pointer).
      include/rtti/metacontainer.h:33-74. *)
  Definition on_container (w : world) (a : nat) (o : out builder) : out builder :=
    match category w a with
    | Some c => if is_container c then o else Rejected
    | None => Rejected
    end.
  (** A query of include/rtti/metaclass.h:25-33 needs a MetaClass pointer. *)
  Definition on_class (w : world) (a : nat) (o : out builder) : out builder :=
    match category w a with
    | Some Class => o
    | _ => Rejected
    end.

  (** A query of include/rtti/metaitem.h:40-48 needs a MetaItem pointer. *)
  Definition on_item (w : world) (a : nat) (o : out builder) : out builder :=
    match category w a with Some _ => o | None => Rejected end.
  (** A query of include/rtti/metaenum.h:21-25 needs a MetaEnum pointer. *)
  Definition on_enum (w : world) (a : nat) (o : out builder) : out builder :=
    match category w a with
    | Some Enum => o
    | _ => Rejected
    end.

  (** include/rtti/metadefine.h:876-880, 1024-1040 on the class returned by create. *)
  Definition ctor_if (on : bool) (args : cargs) (a : nat) (w : world) : out unit :=
    if on then bind (create_ctor w a "" args 0) (fun w _ => Ret w tt) else Ret w tt.
  (** include/rtti/metadefine.h:876-880. *)
  Definition auto_ctors (w : world) (a : nat) (d c m : bool) : out unit :=
    bind (ctor_if d A0 a w) (fun w _ => bind (ctor_if c (ASelf false) a w) (fun w _ => ctor_if m (ASelf true) a w)).

  (** include/rtti/metadefine.h:1012-1022 *)
  Fixpoint add_bases (w : world) (a : nat) (l : list (nat * nat)) : out unit :=
    match l with
    | [] => Ret w tt
    | (t, f) :: l' =>
        match get w a with
        | None => UB
        | Some it => if okbase (i_type it) t then bind (add_base w a t f) (fun w' _ => add_bases w' a l') else Rejected
        end
    end.

  (** A call that returns *this, as in include/rtti/metadefine.h:889-910. *)
  Definition skip {A} (b : builder) (o : out A) : out builder := bind o (fun w _ => Ret w b).

  (** One call, on builder [b]; [use] runs another chain of user code. *)
  Definition step (use : world -> prog -> out unit) (w : world) (b : builder) (c : cmd) : out builder :=
    match c with
    | KAttr n v => (* metadefine.h:841-848, src/metaitem.cpp *)
        match b_item b with
        | None => Ret w b
        | Some a =>
            match get w a with
            | None => UB
            | Some it =>
                if negb (n =? "")%string && holds w (a, LAttrs) then Deadlock
                else
                  match nv_set (i_attrs it) n v with
                  | Some l => Ret (upd w a (set_attrs l)) b
                  | None => Throw OutOfRange w
                  end
            end
        end
    | KNamespace n => (* 850-859 *)
        match b_cont b with
        | None => UB
        | Some o =>
            match category w o with
            | Some Namespace =>
                bind (create_namespace w o n) (fun w r => Ret w (Builder r r (Some o :: b_stack b)))
            | _ => Rejected
            end
        end
    | KClass n t d c m => (* 861-880 *)
        match b_cont b with
        | None => UB
        | Some o =>
            bind (create_class w o n t) (fun w r =>
              match r with
              | None => if d || c || m then UB else Ret w (Builder r r (Some o :: b_stack b))
              | Some a => bind (auto_ctors w a d c m) (fun w _ => Ret w (Builder r r (Some o :: b_stack b)))
              end)
        end
    | KLazy p => (* 888-897 *)
        match b_cont b with
        | None => UB
        | Some a => skip b (set_deferred w a p)
        end
    | KBase l => (* 899-909 *)
        match b_cont b with
        | None => match l with [] => Ret w b | _ => UB end
        | Some a =>
            match category w a with
            | Some Class => skip b (add_bases w a l)
            | _ => Rejected
            end
        end
    | KEnum n t => (* 911-917 *)
        match b_cont b with
        | None => UB
        | Some o => bind (create_enum w o n t) (fun w r => Ret w (Builder r (b_cont b) (b_stack b)))
        end
    | KElement n v => (* 919-931 *)
        match b_item b with
        | None => UB
        | Some a =>
            match get w a with
            | None => UB
            | Some it =>
                if cat_eqb (i_cat it) Enum then
                  if negb (n =? "")%string && holds w (a, LElems) then Deadlock
                  else
                    match nv_set (i_elems it) n v with
                    | Some l => Ret (upd w a (set_elems l)) b
                    | None => Throw OutOfRange w
                    end
                else Ret w b
            end
        end
    | KCtor n args inv => (* 933-941 *)
        match b_cont b with
        | None => UB
        | Some o =>
            match category w o with
            | Some Class => skip b (create_ctor w o n args inv)
            | _ => Rejected
            end
        end
    | KMethod n args inv => (* 943-951 *)
        match b_cont b with
        | None => UB
        | Some o => skip b (create_method w o n args inv)
        end
    | KProperty n inv => (* 953-976 *)
        match b_cont b with
        | None => if (n =? "")%string then Ret w b else UB
        | Some o => skip b (create_property w o n inv)
        end
    | KEnd => (* 978-988; on an empty stack MB is void and the call does not compile *)
        match b_stack b with
        | [] => Rejected
        | o :: s => Ret w (Builder o o s)
        end
    | KThrow => Throw User w
    | KUse catch p =>
        match use w p with
        | Ret w' _ => Ret w' b
        | Throw e w' => if catch then Ret w' b else Throw e w'
        | UB => UB | Deadlock => Deadlock | Rejected => Rejected | Fuel => Fuel
        end
    | KItem a c n => on_container w a (skip b (get_item w a c n))
    | KIndex a c i => on_container w a (skip b (get_index w a c i))
    | KCount a c => on_container w a (skip b (get_count w a c))
    | KGetMethod a n => on_container w a (skip b (get_method w a n))
    | KGetProperty a n => on_container w a (skip b (get_property w a n))
    | KGetCtor a n => on_container w a (skip b (find_method w a Constructor n))
    | KBases a => on_class w a (skip b (bases_query w a))
    | KInherited a b' => on_class w a (on_class w b' (skip b (inherited w a b')))
    | KForce a r => on_container w a (skip b (force k r w a))
    | KEach a c vs =>
        match c with
        | Class | Method => on_container w a (skip b (each use w a c vs))
        | _ => Rejected
        end
    | KDerived a => on_class w a (skip b (derived_query w a))
    | KCast a b' => on_class w a (on_class w b' (skip b (cast_to k w a b')))
    | KAttrs a q => on_item w a (skip b (attr_query w a q))
    | KElems a q => on_enum w a (skip b (elem_query w a q))
    | KEachAttr a vs => on_item w a (skip b (each_attr use w a vs))
    | KEachElem a vs => on_enum w a (skip b (each_elem use w a vs))
    end.

  (** A chain of calls, or the statements of user code.
      include/rtti/metadefine.h:842-988: each call returns the builder for the next. *)
  Definition exec_with (use : world -> prog -> out unit) : world -> builder -> prog -> out builder :=
    fix go (w : world) (b : builder) (p : prog) {struct p} : out builder :=
      match p with
      | [] => Ret w b
      | c :: p' => bind (step use w b c) (fun w' b' => go w' b' p')
      end.
End WithRun.

(** A new chain on container [a]: include/rtti/metadefine.h:45-49 for a deferred definition; with [a] = 0,
    global_define(), src/metadefine.cpp:5-9 and metadefine.h:1055-1064. *)
Definition on (a : nat) : builder := Builder (Some a) (Some a) [].

(** Running user code with nesting depth [n].
    The callback of a deferred definition, include/rtti/metadefine.h:889-898, or other user code. *)
Fixpoint run (k : nat) (okbase : nat -> nat -> bool) (n : nat) (w : world) (a : nat) (p : prog) : out unit :=
  match n with
  | O => Fuel
  | S n' =>
      bind (exec_with (run k okbase n') k okbase (fun w p => run k okbase n' w 0 p) w (on a) p)
           (fun w _ => Ret w tt)
  end.

(** A chain of calls started at [b]. include/rtti/metadefine.h:842-988. *)
Definition exec (k : nat) (okbase : nat -> nat -> bool) (n : nat) (w : world) (b : builder) (p : prog) : out builder :=
  exec_with (run k okbase n) k okbase (fun w p => run k okbase n w 0 p) w b p.

(** A history: independent pieces of user code, each of which may end with an exception.
    User code of a program, no counterpart in /repo. *)
Inductive session := Live (w : world) | Dead.
(** User code of a program, no counterpart in /repo. *)
Definition live {A} (o : out A) : session :=
  match o with Ret w _ | Throw _ w => Live w | _ => Dead end.
(** User code of a program, no counterpart in /repo. *)
Definition sessions (k : nat) (okbase : nat -> nat -> bool) (n : nat) (h : list prog) : session :=
  fold_left (fun s p => match s with Live w => live (run k okbase n w 0 p) | Dead => Dead end) h (Live world0).
