(** Model of every access the library makes to memory that several threads share, one access per step: the tables behind
    their locks, the fields that are not behind any lock, the atomics. Threads run arbitrary clients of the public
    functions; their steps interleave in any way.

    Data are kept as far as the control flow of the functions depends on them. Names are numbers, 0 is the empty name;
    the comparison of method names up to the parenthesis (src/metacontainer.cpp:88-126, see the Strings files) is equality here.
    Left out: exceptions other than the answer [VThrow], deletion of an item that lost the race to be added
    (src/metanamespace.cpp:33), the objects of the user, static construction and destruction (the Exit files). *)
From Coq Require Import List Bool Arith.
From Verif Require Import DeferModel.
Import ListNotations.

(** MetaCategory, include/rtti/metaitem.h; the six lists of a container, src/private/metacontainer_p.h:65-70. *)
Inductive category := Namespace | Class | Property | Method | Enum | Constructor.

(** The two lists of named variants: the attributes of an item (src/private/metaitem_p.h:118), the elements of an
    enumeration (src/private/metaenum_p.h:20). *)
Inductive lst := Attrs (i : nat) | Elems (i : nat).

(** Shared memory that is not atomic:
    - [LTypes]: m_items, m_names of CustomTypes (src/metatype.cpp:36-37); [LInfo t]: the const members of a TypeInfo
      (src/private/metatype_p.h:16-22);
    - [LConv]: m_items of the table of converters (src/metatype.cpp:378);
    - [LSelf i]: what never changes in an item: its class, m_name, m_owner (src/private/metaitem_p.h:116-117), m_typeId
      (src/private/metaclass_p.h:118);
    - [LItems c k]: m_items, m_names of a MetaItemList (src/private/metacontainer_p.h:32-33);
    - [LBases c], [LDerived c]: m_items of the two lists of a class (src/private/metaclass_p.h:46, 94);
    - [LNames x]: m_items, m_names of a NamedVariantList, [LVal x n]: the value of its entry number [n]
      (src/private/metaitem_p.h:25, 48-49);
    - [LQual i]: m_qualifiedName (src/private/metaitem_p.h:119);
    - [LDefer c]: m_deferredDefine (src/private/metacontainer_p.h:77). *)
Inductive loc :=
  | LTypes | LInfo (t : nat) | LConv | LSelf (i : nat) | LItems (c : nat) (k : category) | LBases (c : nat)
  | LDerived (c : nat) | LNames (x : lst) | LVal (x : lst) (n : nat) | LQual (i : nat) | LDefer (c : nat).

(** The atomics: TypeInfo::metaClass (src/private/metatype_p.h:24), m_deferredDefine_lock
    (src/private/metacontainer_p.h:76). *)
Inductive aloc := AMeta (t : nat) | AFlag (c : nat).

(** The locks, each a std::shared_mutex: src/metatype.cpp:35, 377; src/private/metacontainer_p.h:31;
    src/private/metaclass_p.h:45, 93; src/private/metaitem_p.h:47. *)
Inductive lock :=
  KTypes | KConv | KItems (c : nat) (k : category) | KBases (c : nat) | KDerived (c : nat) | KNames (x : lst).

(** std::shared_lock and std::unique_lock. src/metatype.cpp:70, 84. *)
Inductive mode := Shared | Exclusive.

Scheme Equality for category.
Scheme Equality for lst.
Scheme Equality for loc.
Scheme Equality for aloc.
Scheme Equality for lock.
Scheme Equality for mode.

(** Contents of memory and answers of functions. [VUnit]: nothing (a default constructed member);
    [VMap]: the rows of a table, key and value; [VConv]: the table of converters; [VPath]: a qualified name, the names
    from the outermost in, [] is the empty string; [VSelf]: an item; [VRef]: a reference to a value in a list, None is
    variant::empty_variant; [VThrow]: the function threw.
    src/metatype.cpp:34-42, 378, src/private/metacontainer_p.h:20-76, src/private/metaitem_p.h:47-50. *)
Inductive val :=
  | VUnit | VBool (b : bool) | VNat (n : nat) | VOpt (o : option nat) | VMap (l : list (nat * nat))
  | VConv (l : list ((nat * nat) * nat)) | VPath (l : list nat) | VSelf (k : category) (name : nat) (owner : option nat)
  | VRef (r : option (lst * nat)) | VThrow.

(** Contents read as what the member holds; nothing is the empty table, null, the empty string (no line of /repo). *)
Definition rows (v : val) : list (nat * nat) := match v with VMap l => l | _ => [] end.
(** A content read as the table of src/metatype.cpp:378. *)
Definition convs (v : val) : list ((nat * nat) * nat) := match v with VConv l => l | _ => [] end.
(** A content read as a pointer, no line of /repo. *)
Definition opt (v : val) : option nat := match v with VOpt o => o | _ => None end.
(** A content read as a truth value, no line of /repo. *)
Definition flag (v : val) : bool := match v with VBool b => b | _ => false end.
(** A content read as the names of a path, no line of /repo. *)
Definition path (v : val) : list nat := match v with VPath l => l | _ => [] end.
(** A content read as a number, no line of /repo. *)
Definition number (v : val) : nat := match v with VNat n => n | _ => 0 end.

(** std::unordered_map::find (src/metatype.cpp:71, 355; src/metacontainer.cpp:60; src/metaitem.cpp:26). *)
Definition assoc (n : nat) (l : list (nat * nat)) : option nat :=
  option_map snd (find (fun r => fst r =? n) l).
(** Equality of the keys of src/metatype.cpp:378. *)
Definition same (a b : nat * nat) : bool := (fst a =? fst b) && (snd a =? snd b).
(** MetaTypeFunctionList::get, src/metatype.cpp:351-357. *)
Definition conv_of (k : nat * nat) (l : list ((nat * nat) * nat)) : option nat :=
  option_map snd (find (fun r => same (fst r) k) l).

(** Functions that call themselves or each other, unfolded when reached:
    [SQual i]: qualifiedName of [i] (src/metaitem.cpp:47-58); [SRun d c]: the deferred definition number [d] on [c];
    [SMethod], [SProperty]: getMethodInternal, getPropertyInternal (src/metaclass.cpp:181-235); [SInherited c b],
    [SCast c b] (123-174); [SForce c]: forceDeferredDefine(Recursive) (src/metacontainer.cpp:169-191). *)
Inductive sub :=
  | SQual (i : nat) | SRun (d c : nat) | SMember (k : category) (c n : nat) | SInherited (c b : nat) | SCast (c b : nat)
  | SForce (c : nat).

(** What threads call. [t], [a], [b] are type identifiers, 0 the invalid one; [c] containers, [i] items; [n] names.
    - src/metatype.cpp: [TypeByName] 116-121, [Register] 222-232, [HasConv] 399-413, [Convert] 427-445, [RegConv] 415-425,
      [UnregConv] 447-455;
    - src/metaclass.cpp: [FindClass] 44-48, [CreateClass] 17-42, [BaseCount] .. [DerivedAt] 62-90, [AddBase] 92-121,
      [Inherited] 123-145, [Cast] 147-179;
    - src/metacontainer.cpp: [Count] 203-208, [At] 217-222, [Get] 210-215, [GetMember] 315-326, 355-363, [GetConstructor]
      279-283, [EachClass], [EachMethod] 262-273, 338-349, [Defer] 144-151, [Force] 169-191; [Create]: create of
      src/metanamespace.cpp:25-38, metaenum.cpp:10-23, metamethod.cpp:22-40, metaproperty.cpp:15-32, metaconstructor.cpp:10-28;
    - src/metaitem.cpp, src/metaenum.cpp: [Qualified] 92-96, [Size] .. [SetValue] 98-149 and metaenum.cpp:25-70;
      [BaseAt] and [DerivedAt] answer what is in the list; [Use r]: the caller reads the variant that it was given a reference to.
    Functions that read only what never changes (name, owner, category, metaTypeId, invoker) are left out. *)
Inductive client :=
  | Stop (r : bool)
  | Call (a : api) (k : val -> client)
with api :=
  | TypeByName (n : nat) | Register (n decay : nat) | HasConv (a b : nat) | Convert (a b : nat)
  | RegConv (a b f : nat) | UnregConv (a b : nat)
  | FindClass (t : nat) | CreateClass (c n t : nat) | Create (k : category) (c n : nat)
  | Count (c : nat) (k : category) | At (c : nat) (k : category) (i : nat) | Get (c : nat) (k : category) (n : nat)
  | GetMember (k : category) (c n : nat) | GetConstructor (c n : nat)
  | EachClass (c : nat) (f : nat -> client) | EachMethod (c : nat) (f : nat -> client)
  | BaseCount (c : nat) | BaseAt (c i : nat) | DerivedCount (c : nat) | DerivedAt (c i : nat) | AddBase (c t : nat)
  | Inherited (c b : nat) | Cast (c b : nat)
  | Qualified (i : nat)
  | Size (x : lst) | Value (x : lst) (i : nat) | ValueByName (x : lst) (n : nat) | Name (x : lst) (i : nat)
  | EachValue (x : lst) (f : nat -> nat -> client) | SetValue (x : lst) (n v : nat)
  | Use (r : option (lst * nat))
  | Defer (c d : nat) | Force (c : nat).

(** What a thread still has to do. [Load], [Store]: plain accesses; [Alloc]: initialise memory just allocated, which no
    other thread can know; [New]: a new object; [Atomic]: one operation on an atomic, with the value before; [Mark]
    and [Note]: ghosts, a function is called after so many answers, and it is answered; [Crash]: a null pointer is dereferenced (no line of /repo). *)
Inductive prog :=
  | Done
  | Crash
  | Lock (g : lock) (m : mode) (p : prog)
  | Unlock (g : lock) (m : mode) (p : prog)
  | Load (l : loc) (k : val -> prog)
  | Store (l : loc) (v : val) (p : prog)
  | Alloc (l : loc) (v : val) (p : prog)
  | Atomic (a : aloc) (f : val -> val) (k : val -> prog)
  | New (k : nat -> prog)
  | Sub (q : sub) (k : val -> prog)
  | Mark (k : nat -> prog)
  | Note (a : api) (b : nat) (v : val) (p : prog).

(** MetaContainer::checkDeferredDefine, src/metacontainer.cpp:153-167. The guard of FINALLY runs after the definition. *)
Definition check (c : nat) (p : prog) : prog :=
  Load (LDefer c) (fun v => match opt v with                                                              (* 156 *)
  | None => p
  | Some _ => Atomic (AFlag c) (fun _ => VBool true) (fun old => if flag old then p else                  (* 158 *)
      Load (LDefer c) (fun w => match opt w with                                                          (* 166 *)
      | None => Crash
      | Some d => Sub (SRun d c) (fun _ => Store (LDefer c) (VOpt None)                                   (* 162 *)
                    (Atomic (AFlag c) (fun _ => VBool false) (fun _ => p)))                               (* 163 *)
      end))
  end).

(** The checkDeferredDefine of any item: virtual, empty but for containers, src/metaitem.cpp:77-78. Elements of
    enumerations are read without it, src/metaenum.cpp:36-70. *)
Definition check_item (i : nat) (p : prog) : prog :=
  Load (LSelf i) (fun s => match s with VSelf Namespace _ _ | VSelf Class _ _ => check i p | _ => p end).
(** checkDeferredDefine before a look at attributes: src/metaitem.cpp:98-133. *)
Definition check_list (x : lst) (p : prog) : prog := match x with Attrs i => check_item i p | Elems _ => p end.

(** One look into a table under a shared lock, e.g. src/metatype.cpp:70-74, src/metacontainer.cpp:48-51, 67-71. *)
Definition look (g : lock) (l : loc) (k : val -> prog) : prog :=
  Lock g Shared (Load l (fun v => Unlock g Shared (k v))).

(** for_each under a shared lock: the list is read again for every item, src/private/metacontainer_p.h:37-45,
    src/private/metaclass_p.h:98-106, src/private/metaitem_p.h:72-81. [body] gets an item and what to do if the loop goes on and if it ends
    here. *)
Fixpoint each (g : lock) (l : loc) (todo : list (nat * nat)) (body : nat * nat -> prog -> prog) (finish : prog) : prog :=
  match todo with
  | [] => Unlock g Shared finish
  | r :: rest => Load l (fun _ => body r (each g l rest body finish))
  end.
(** The functions for_each: src/private/metacontainer_p.h:37-46, src/private/metaclass_p.h:98-107, src/private/metaitem_p.h:72-82. *)
Definition for_each (g : lock) (l : loc) (body : nat * nat -> prog -> prog) (finish : prog) : prog :=
  Lock g Shared (Load l (fun v => each g l (rows v) body finish)).

(** MetaItemList::get by name, src/metacontainer.cpp:54-65, after checkDeferredDefine (210-215). *)
Definition item (c : nat) (k : category) (n : nat) (q : val -> prog) : prog :=
  check c (if n =? 0 then q (VOpt None)
           else look (KItems c k) (LItems c k) (fun v => q (VOpt (assoc n (rows v))))).

(** MetaContainerPrivate::findMethod after checkDeferredDefine, src/metacontainer.cpp:88-126, 279-283, 315-319: the
    whole search runs under the lock. *)
Definition find_method (c : nat) (k : category) (n : nat) (q : val -> prog) : prog :=
  check c (look (KItems c k) (LItems c k) (fun v => q (VOpt (assoc n (rows v))))).

(** MetaItemList::add, src/metacontainer.cpp:21-44. *)
Definition add_item (c : nat) (k : category) (n i : nat) (q : bool -> prog) : prog :=
  Lock (KItems c k) Exclusive (Load (LItems c k) (fun v =>
    match assoc n (rows v) with
    | Some _ => Unlock (KItems c k) Exclusive (q false)
    | None => Store (LItems c k) (VMap (rows v ++ [(n, i)])) (Unlock (KItems c k) Exclusive (q true))
    end)).

(** The search a create function begins with: getMethod and getProperty also search the bases of a class
    (src/metamethod.cpp:29, src/metaproperty.cpp:21), the others do not. *)
Definition search (k : category) (c n : nat) (q : val -> prog) : prog :=
  match k with
  | Method | Property => Sub (SMember k c n) q
  | Constructor => find_method c k n q
  | _ => item c k n q
  end.

(** create, e.g. src/metanamespace.cpp:25-38. The signature of a method or constructor is never empty; a property
    without name is not created (src/metaproperty.cpp:18). *)
Definition create (k : category) (c n : nat) (q : val -> prog) : prog :=
  if (match k with Property => true | _ => false end) && (n =? 0) then q (VOpt None) else
  search k c n (fun v => match opt v with
  | Some i => q (VOpt (Some i))
  | None => New (fun i => Alloc (LSelf i) (VSelf k n (Some c))
              (add_item c k n i (fun ok => if ok then q (VOpt (Some i)) else search k c n q)))
  end).

(** MetaClass::create, src/metaclass.cpp:17-42. *)
Definition create_class (c n t : nat) (q : val -> prog) : prog :=
  item c Class n (fun v => match opt v with                                                               (* 21 *)
  | Some i => q (VOpt (Some i))
  | None =>
      if t =? 0 then q VThrow                                                                             (* 25-26 *)
      else Atomic (AMeta t) (fun x => x) (fun m => match opt m with                                       (* 28 *)
      | Some _ => Atomic (AMeta t) (fun x => x) (fun m' =>                                                (* 29-30 *)
                    match opt m' with Some j => Sub (SQual j) (fun _ => q VThrow) | None => Crash end)
      | None => New (fun i => Alloc (LSelf i) (VSelf Class n (Some c))                                    (* 32 *)
                  (add_item c Class n i (fun ok =>                                                        (* 33 *)
                     if ok then Atomic (AMeta t) (fun _ => VOpt (Some i)) (fun _ => q (VOpt (Some i)))    (* 34 *)
                     else item c Class n q)))                                                             (* 38 *)
      end)
  end).

(** A row added under the exclusive lock unless its key is there, src/private/metaclass_p.h:15-21, 55-60; addBaseClass
    with addDerivedClass of the base, src/metaclass.cpp:92-121. The list of derived classes holds the class in place of
    its type; that the class itself is registered (113-117) is left out. *)
Definition add_row (g : lock) (l : loc) (n x : nat) (p : prog) : prog :=
  Lock g Exclusive (Load l (fun v =>
    match assoc n (rows v) with
    | Some _ => Unlock g Exclusive p
    | None => Store l (VMap (rows v ++ [(n, x)])) (Unlock g Exclusive p)
    end)).
(** MetaClass::addBaseClass, src/metaclass.cpp:92-122. *)
Definition add_base (c t : nat) (q : val -> prog) : prog :=
  if t =? 0 then q VThrow                                                                                 (* 97-98 *)
  else Atomic (AMeta t) (fun x => x) (fun m => match opt m with                                           (* 99 *)
  | None => q VThrow                                                                                      (* 100-101 *)
  | Some b =>
      add_row (KBases c) (LBases c) t b                                                                   (* 104 *)
        (add_row (KDerived b) (LDerived b) c c (q VUnit))                                                 (* 105, 120 *)
  end).

(** MetaClass::find of a base in a walk, src/metaclass.cpp:44-48, 135-136: the base is registered. *)
Definition direct_base (t : nat) (k : nat -> prog) : prog :=
  Atomic (AMeta t) (fun x => x) (fun m => match opt m with Some d => k d | None => Crash end).

(** CustomTypes::addTypeInfo, src/metatype.cpp:77-93. A type without decayed type is its own (metatype_p.h:31). *)
Definition add_type (n decay : nat) (q : val -> prog) : prog :=
  if n =? 0 then q (VOpt None)
  else Lock KTypes Exclusive (Load LTypes (fun v =>
    match assoc n (rows v) with
    | Some t => Unlock KTypes Exclusive (q (VOpt (Some t)))
    | None => New (fun t => Alloc (LInfo t) (VNat (if decay =? 0 then t else decay))
                (Store LTypes (VMap (rows v ++ [(n, t)])) (Unlock KTypes Exclusive (q (VOpt (Some t))))))
    end)).

(** The decayed types of two valid types, e.g. src/metatype.cpp:401-403. *)
Definition decays (a b : nat) (no : prog) (k : nat * nat -> prog) : prog :=
  if (a =? 0) || (b =? 0) then no
  else Load (LInfo a) (fun x => Load (LInfo b) (fun y => k (number x, number y))).

(** NamedVariantList::set, src/private/metaitem_p.h:52-70. *)
Definition set_value (x : lst) (n v : nat) (p : prog) : prog :=
  if n =? 0 then p
  else Lock (KNames x) Exclusive (Load (LNames x) (fun w =>
    match assoc n (rows w) with
    | None => Alloc (LVal x (length (rows w))) (VNat v)                                                   (* 61 *)
                (Store (LNames x) (VMap (rows w ++ [(n, length (rows w))])) (Unlock (KNames x) Exclusive p))
    | Some i => Store (LVal x i) (VNat v) (Unlock (KNames x) Exclusive p)                                 (* 68 *)
    end)).

(** The functions of [api] up to the callbacks, and clients that call them. The lines are in the list above.
    The list is that of [api], of functions in src/metatype.cpp, src/metacontainer.cpp and others. *)
Fixpoint den (c : client) (q : bool -> prog) {struct c} : prog :=
  match c with
  | Stop r => q r
  | Call a k => Mark (fun b => den_api a (fun v => Note a b v (den (k v) q)))
  end
with den_api (a : api) (q : val -> prog) {struct a} : prog :=
  match a with
  | TypeByName n => if n =? 0 then q (VOpt None) else look KTypes LTypes (fun v => q (VOpt (assoc n (rows v))))
  | Register n decay => add_type n decay q
  | HasConv a b => decays a b (q (VBool false)) (fun k => look KConv LConv (fun v =>
                     q (VBool (match conv_of k (convs v) with Some _ => true | None => false end))))
  | Convert a b => decays a b (q (VOpt None)) (fun k => look KConv LConv (fun v => q (VOpt (conv_of k (convs v)))))
  | RegConv a b f => decays a b (q (VBool false)) (fun k => Lock KConv Exclusive (Load LConv (fun v =>
                       match conv_of k (convs v) with
                       | Some _ => Unlock KConv Exclusive (q (VBool false))
                       | None => Store LConv (VConv (convs v ++ [(k, f)])) (Unlock KConv Exclusive (q (VBool true)))
                       end)))
  | UnregConv a b => decays a b (q VUnit) (fun k => Lock KConv Exclusive (Load LConv (fun v =>
                       Store LConv (VConv (filter (fun r => negb (same (fst r) k)) (convs v)))
                         (Unlock KConv Exclusive (q VUnit)))))
  | FindClass t => if t =? 0 then q (VOpt None) else Atomic (AMeta t) (fun x => x) q
  | CreateClass c n t => create_class c n t q
  | Create k c n => create k c n q
  | Count c k => check c (look (KItems c k) (LItems c k) (fun v => q (VNat (length (rows v)))))
  | At c k i => check c (look (KItems c k) (LItems c k) (fun v => q (VOpt (option_map snd (nth_error (rows v) i)))))
  | Get c k n => item c k n q
  | GetMember k c n => if n =? 0 then q (VOpt None) else Sub (SMember k c n) q
  | GetConstructor c n => find_method c Constructor n q
  | EachClass c f => check c (for_each (KItems c Class) (LItems c Class)
                       (fun r more => den (f (snd r)) (fun b => if b then more else Unlock (KItems c Class) Shared (q VUnit)))
                       (q VUnit))
  | EachMethod c f => check c (for_each (KItems c Method) (LItems c Method)
                       (fun r more => den (f (snd r)) (fun b => if b then more else Unlock (KItems c Method) Shared (q VUnit)))
                       (q VUnit))
  | BaseCount c => check c (look (KBases c) (LBases c) (fun v => q (VNat (length (rows v)))))
  | BaseAt c i => check c (look (KBases c) (LBases c) (fun v => match nth_error (rows v) i with
                    | Some r => Atomic (AMeta (fst r)) (fun x => x) (fun _ => q (VOpt (Some (fst r)))) | None => q (VOpt None) end))
  | DerivedCount c => check c (look (KDerived c) (LDerived c) (fun v => q (VNat (length (rows v)))))
  | DerivedAt c i => check c (look (KDerived c) (LDerived c) (fun v => match nth_error (rows v) i with
                    | Some r => q (VOpt (Some (fst r))) | None => q (VOpt None) end))
  | AddBase c t => add_base c t q
  | Inherited c b => Sub (SInherited c b) q
  | Cast c b => Sub (SCast c b) q
  | Qualified i => Sub (SQual i) q
  | Size x => check_list x (look (KNames x) (LNames x) (fun v => q (VNat (length (rows v)))))
  | Value x i => check_list x (look (KNames x) (LNames x) (fun v =>
                   q (VRef (if i <? length (rows v) then Some (x, i) else None))))
  | ValueByName x n => check_list x (if n =? 0 then q (VRef None)
                   else look (KNames x) (LNames x) (fun v => q (VRef (option_map (pair x) (assoc n (rows v))))))
  | Name x i => check_list x (look (KNames x) (LNames x) (fun v => q (VOpt (option_map fst (nth_error (rows v) i)))))
  | EachValue x f => check_list x (for_each (KNames x) (LNames x)
                       (fun r more => den (f (fst r) (snd r)) (fun b => if b then more else Unlock (KNames x) Shared (q VUnit)))
                       (q VUnit))
  | SetValue x n v => set_value x n v (q VUnit)
  | Use r => match r with Some (x, n) => Load (LVal x n) q | None => q (VNat 0) end
  | Defer c d => Load (LDefer c) (fun v => match opt v with
                   | Some _ => Sub (SQual c) (fun _ => q VThrow)
                   | None => Store (LDefer c) (VOpt (Some d)) (q VUnit)
                   end)
  | Force c => Sub (SForce c) q
  end.

Section Run.
  (** The deferred definitions, functions of the container, IDefinitionCallbackHolder::invoke, include/rtti/metadefine.h. *)
  Variable defs : nat -> nat -> client.

  (** The bodies of the functions in [sub]. *)
  Definition unfold (s : sub) (q : val -> prog) : prog :=
    match s with
    | SQual i =>                                                                     (* src/metaitem.cpp:47-58 *)
        Load (LQual i) (fun v => match path v with                                   (* 55 *)
        | _ :: _ => Load (LQual i) q                                                 (* 57, read by the caller *)
        | [] => Load (LSelf i) (fun s => match s with
                | VSelf _ name (Some o) =>                                           (* 49-50 *)
                    Sub (SQual o) (fun w => Store (LQual i) (VPath (path w ++ [name])) (Load (LQual i) q))
                | _ => Store (LQual i) (VPath []) (Load (LQual i) q)                 (* 56 *)
                end)
        end)
    | SRun d c => den (defs d c) (fun _ => q VUnit)
    | SMember k c n =>                                                               (* src/metaclass.cpp:181-235 *)
        find_method c k n (fun v => match opt v with
        | Some m => q (VOpt (Some m))
        | None => Load (LSelf c) (fun s => match s with
            | VSelf Class _ _ =>
                for_each (KBases c) (LBases c)                                       (* 194-205 *)
                  (fun r more => direct_base (fst r) (fun d => Sub (SMember k d n) (fun w => match opt w with
                     | Some m => Unlock (KBases c) Shared (q (VOpt (Some m)))
                     | None => more
                     end)))
                  (q (VOpt None))
            | _ => q (VOpt None)
            end)
        end)
    | SInherited c b =>                                                              (* 123-145 *)
        if c =? b then q (VBool true)
        else check c (for_each (KBases c) (LBases c)
               (fun r more => direct_base (fst r) (fun d => Sub (SInherited d b) (fun w =>
                  if flag w then Unlock (KBases c) Shared (q (VBool true)) else more)))
               (q (VBool false)))
    | SCast c b =>                                                                   (* 147-174 *)
        if c =? b then q (VBool true)
        else check c (for_each (KBases c) (LBases c)
               (fun r more => direct_base (fst r) (fun d => Sub (SInherited d b) (fun w =>
                  if flag w then Sub (SCast d b) (fun u => Unlock (KBases c) Shared (q u)) else more)))
               (q (VBool false)))
    | SForce c =>                                                                    (* src/metacontainer.cpp:173-190 *)
        check c (for_each (KItems c Class) (LItems c Class) (fun r more => Sub (SForce (snd r)) (fun _ => more))
          (for_each (KItems c Namespace) (LItems c Namespace) (fun r more => Sub (SForce (snd r)) (fun _ => more))
            (q VUnit)))
    end.

  (** Memory, atomics, who holds which lock how, the next new object, the threads, what they were
      answered and after how many answers they had called (a ghost). No line of /repo: the machine. *)
  Record state := State {
    mem : loc -> val; atom : aloc -> val; held : list (nat * (lock * mode)); next : nat; threads : list prog;
    log : list (api * nat * val)
  }.

  (** May a lock be taken: std::shared_mutex. A thread may lock shared again here what it has locked shared, which the
      standard leaves undefined; that only adds executions.
      The locks of src/metatype.cpp:35, 377, src/private/metacontainer_p.h:31. *)
  Definition free (s : state) (g : lock) (m : mode) : bool :=
    forallb (fun e => negb (lock_beq (fst (snd e)) g)
                      || match m, snd (snd e) with Shared, Shared => true | _, _ => false end) (held s).

  (** [l] without its first entry equal to [x] (no line of /repo). *)
  Fixpoint without (x : nat * (lock * mode)) (l : list (nat * (lock * mode))) : list (nat * (lock * mode)) :=
    match l with
    | [] => []
    | y :: r => if (fst x =? fst y) && (lock_beq (fst (snd x)) (fst (snd y)) && mode_beq (snd (snd x)) (snd (snd y)))
                then r else y :: without x r
    end.

  (** One step of thread [i] that has to do [p]; a thread that has to wait stays as it is (no line of /repo). *)
  Definition step (s : state) (i : nat) (p : prog) : state * prog :=
    match p with
    | Done | Crash => (s, p)
    | Lock g m p' =>
        if free s g m then (State (mem s) (atom s) ((i, (g, m)) :: held s) (next s) (threads s) (log s), p') else (s, p)
    | Unlock g m p' => (State (mem s) (atom s) (without (i, (g, m)) (held s)) (next s) (threads s) (log s), p')
    | Load l k => (s, k (mem s l))
    | Store l v p' | Alloc l v p' =>
        (State (fun x => if loc_beq x l then v else mem s x) (atom s) (held s) (next s) (threads s) (log s), p')
    | Atomic a f k =>
        (State (mem s) (fun x => if aloc_beq x a then f (atom s a) else atom s x) (held s) (next s) (threads s) (log s),
         k (atom s a))
    | New k => (State (mem s) (atom s) (held s) (S (next s)) (threads s) (log s), k (next s))
    | Sub q k => (s, unfold q k)
    | Mark k => (s, k (length (log s)))
    | Note a b v p' => (State (mem s) (atom s) (held s) (next s) (threads s) (log s ++ [(a, b, v)]), p')
    end.

  (** The scheduler lets thread [i] make one step (no line of /repo). *)
  Definition turn (s : state) (i : nat) : state :=
    match nth_error (threads s) i with
    | None => s
    | Some p => let '(s', p') := step s i p in
                State (mem s') (atom s') (held s') (next s') (put (threads s') i p') (log s')
    end.

  (** An execution follows a schedule (no line of /repo). *)
  Definition exec (s : state) (schedule : list nat) : state := fold_left turn schedule s.
End Run.

(** The threads about to begin, on any memory, with nothing locked (no line of /repo). *)
Definition start (m : loc -> val) (a : aloc -> val) (first : nat) (clients : list client) : state :=
  State m a [] first (map (fun c => den c (fun _ => Done)) clients) [].
