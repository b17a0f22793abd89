(** Model of a process that consists of several modules: an executable, shared libraries, and libraries that are loaded and
    unloaded. The library is one of them if it is built as shared library (CMakeLists.txt:38, src/CMakeLists.txt:29-41, with
    hidden symbols), else there is a copy of it in every module it is linked to. What the headers define is compiled into
    every module: the statics of include/rtti/metatype.h:436-450, 521-526, 786, 791, include/rtti/typename.h:38-42 and
    include/rtti/detail/variant_impl.h:383-432 exist once or in several copies, as the dynamic linker has it.

    One thread. Registered classes and methods are those of a flat namespace (ReflModel.v has the others); converters are
    functors of the two kinds of metatype.h:778-793. *)
From Coq Require Import NArith List Bool Arith String.
From Verif Require Import TypesModel InheritModel RegistryModel AccModel.
Import ListNotations.

(** ** Modules (no line of /repo) *)

(** What exists once per module: the static of metaTypeId<T>(); the text of a type's name; the table of functions of a
    type; the table of a variant that holds a value or wrapper of a type, or of an empty one; a converter object.
    The statics of include/rtti/metatype.h:436-450, 521-526, 786, 791, include/rtti/typename.h:38-42, include/rtti/detail/variant_impl.h:383-432. *)
Inductive sym :=
| SId (q : qty) | SText (q : qty) | STable (q : qty) | SVariant (t : option (form * ty)) | SConverter (from to : qty) (f : nat).

(** [image m]: the module whose copy of src/*.cpp is called from module [m]; [copy m s]: the module whose copy of [s] is used
    by code of [m]. A module that is loaded again is another module. *)
Record linkage := Linkage { image : nat -> nat; copy : nat -> sym -> nat }.

(** Everything linked into one module. The static build of src/CMakeLists.txt:29-41 with one module. *)
Definition single : linkage := {| image := fun _ => 0; copy := fun _ _ => 0 |}.

(** ** State *)

(** A MetaType_ID: the registry and the position of the entry in it (an address, src/metatype.cpp:55-63). *)
Definition ident_t := option (nat * nat).

(** TypeInfo, src/private/metatype_p.h:12-37; [en_text] and [en_table]: the modules the name and the table point into;
    [en_owner]: the type all other fields were computed from; [en_class]: the class pointer. *)
Record entry := Entry { en_name : string; en_text : nat; en_owner : qty; en_decay : nat * nat; en_table : nat; en_class : option nat }.

(** A variant, include/rtti/variant.h:603-607: the module its table of functions lies in, and what it holds. *)
Record variable := Var { v_module : nat; v_content : option content }.

(** A registered method: its name is copied (src/private/metaitem_p.h:116), its invoker (include/rtti/metadefine.h:104-436) has
    its code in a module; [it_fun] stands for what it does. *)
Record item := Item { it_name : string; it_module : nat; it_fun : nat }.

(** A registered converter, src/metatype.cpp:378: a pointer to an object in a module. *)
Record converter := Converter { cv_key : (nat * nat) * (nat * nat); cv_module : nat; cv_fun : nat }.

(** The modules that are loaded; by image, the registries; the statics of metaTypeId by module and type; the variants; the
    static converter objects by module, types and type of the functor.
    src/metatype.cpp:34-42, 378, src/private/metacontainer_p.h:20-60. *)
Record state := State {
  loaded : list nat; types : nat -> list entry; ids : list ((nat * qty) * ident_t); vars : list variable;
  items : nat -> list item; convs : nat -> list converter; objects : list ((nat * (qty * qty * nat)) * nat) }.

(** No line of /repo: a process that starts with the modules [ms]. *)
Definition start (ms : list nat) : state := State ms (fun _ => []) [] [] (fun _ => []) (fun _ => []) [].

(** No line of /repo: updates. *)
Definition is_loaded (st : state) (m : nat) : bool := existsb (Nat.eqb m) (loaded st).
(** Update of a function, no line of /repo. *)
Definition at_image {A} (f : nat -> A) (i : nat) (a : A) : nat -> A := fun j => if j =? i then a else f j.
(** Update of the state, no line of /repo. *)
Definition set_types (st : state) (i : nat) (l : list entry) : state :=
  State (loaded st) (at_image (types st) i l) (ids st) (vars st) (items st) (convs st) (objects st).
(** Initialisation of the static of include/rtti/metatype.h:521-526. *)
Definition add_id (st : state) (k : nat * qty) (t : ident_t) : state :=
  State (loaded st) (types st) (ids st ++ [(k, t)]) (vars st) (items st) (convs st) (objects st).
(** Update of the state, no line of /repo. *)
Definition set_vars (st : state) (l : list variable) : state :=
  State (loaded st) (types st) (ids st) l (items st) (convs st) (objects st).
(** Update of the state, no line of /repo. *)
Definition set_items (st : state) (i : nat) (l : list item) : state :=
  State (loaded st) (types st) (ids st) (vars st) (at_image (items st) i l) (convs st) (objects st).
(** Update of m_items, src/metatype.cpp:378. *)
Definition set_convs (st : state) (i : nat) (l : list converter) : state :=
  State (loaded st) (types st) (ids st) (vars st) (items st) (at_image (convs st) i l) (objects st).
(** Initialisation of a static of include/rtti/metatype.h:786, 791. *)
Definition add_object (st : state) (k : nat * (qty * qty * nat)) (f : nat) : state :=
  State (loaded st) (types st) (ids st) (vars st) (items st) (convs st) (objects st ++ [(k, f)]).
(** A list with one element replaced, no line of /repo. *)
Fixpoint set_nth {A} (i : nat) (a : A) (l : list A) : list A :=
  match l, i with
  | [], _ => []
  | _ :: l', 0 => a :: l'
  | b :: l', S i' => b :: set_nth i' a l'
  end.

(** Equality of MetaType_ID, include/rtti/metatype.h:37. *)
Definition id_eqb (a b : nat * nat) : bool := (fst a =? fst b) && (snd a =? snd b).
(** Equality, no line of /repo. *)
Definition key_eqb (a b : nat * qty) : bool := (fst a =? fst b) && qeqb (snd a) (snd b).
(** Equality of the keys of src/metatype.cpp:378. *)
Definition pair_eqb (a b : (nat * nat) * (nat * nat)) : bool := id_eqb (fst a) (fst b) && id_eqb (snd a) (snd b).
(** Equality, no line of /repo. *)
Definition object_eqb (a b : nat * (qty * qty * nat)) : bool :=
  let '(m, (f, t, k)) := a in let '(m', (f', t', k')) := b in (m =? m') && qeqb f f' && qeqb t t' && (k =? k').

(** [None]: code or data of a module that is not loaded is used. No line of /repo. *)
Definition result (A : Type) := option (state * A).
(** Sequence of two calls, no line of /repo. *)
Definition next {A B} (r : result A) (f : state -> A -> result B) : result B :=
  match r with None => None | Some (st, a) => f st a end.

Section Process.

Variable L : linkage.
(** [type_name<T>()], include/rtti/typename.h:10-42; std::hash of it; the classes (AccModel.v). *)
Variable nm : qty -> string.
Variable hash : string -> nat.
Variable e : env.

(** ** Types *)

(** The look-up of src/metatype.cpp:71-72, 85 in a table without collisions. *)
Fixpoint position (n : string) (l : list entry) : option nat :=
  match l with
  | [] => None
  | x :: l' => if (en_name x =? n)%string then Some 0 else option_map S (position n l')
  end.

(** The look-up of std::unordered_map<std::string_view, ...>, src/metatype.cpp:71-72, 85: keys with the same hash are
    compared, which reads them. Simplified: all of them, also those behind the one that is found. *)
Definition find_name (st : state) (i : nat) (n : string) : option (option nat) :=
  if existsb (fun x => (hash (en_name x) =? hash n) && negb (is_loaded st (en_text x))) (types st i) then None
  else Some (position n (types st i)).

(** addTypeInfo, src/metatype.cpp:77-93, called from module [m] for type [q]; a decay that is not valid becomes the entry
    itself (metatype_p.h:31). *)
Definition enter (m : nat) (q : qty) (st : state) (dec : ident_t) : result ident_t :=
  let i := image L m in
  if (nm q =? "")%string then Some (st, None) else
  match find_name st i (nm q) with
  | None => None
  | Some (Some p) => Some (st, Some (i, p))
  | Some None =>
      let p := List.length (types st i) in
      let d := match dec with Some d => d | None => (i, p) end in
      Some (set_types st i (types st i ++ [Entry (nm q) (copy L m (SText q)) q d (copy L m (STable q)) None]), Some (i, p))
  end.

(** The static of metaTypeId<T>() of module [m], include/rtti/metatype.h:521-530. *)
Definition once (m : nat) (q : qty) (st : state) (f : state -> result ident_t) : result ident_t :=
  if is_void q then Some (st, None) else
  let k := (copy L m (SId q), q) in
  match assoc key_eqb k (ids st) with
  | Some t => Some (st, t)
  | None => next (f st) (fun st' t => Some (add_id st' k t, t))
  end.

(** metaTypeId<T>() in module [m], metatype.h:489-530; the recursion goes to the decayed type and ends there. Simplified:
    all of it runs in [m]. *)
Definition ident (m : nat) (st : state) (q : qty) : result ident_t :=
  once m q st (fun st =>
    if qeqb q (full_decay q) then enter m q st None
    else next (once m (full_decay q) st (fun st => enter m (full_decay q) st None)) (fun st1 d => enter m q st1 d)).

(** MetaType{id} and a member of it, src/metatype.cpp:60-63, 110-163: an identifier is an address, of whichever registry. *)
Definition deref (st : state) (t : ident_t) : result (option entry) :=
  match t with
  | None => Some (st, None)
  | Some (i, p) =>
      if is_loaded st i then match nth_error (types st i) p with Some x => Some (st, Some x) | None => None end else None
  end.
(** What src/metatype.cpp:116-163 report of an entry. *)
Definition described (x : option entry) : metatype := option_map (fun x => info_of (en_owner x)) x.
(** The comparison of decayed identifiers, as in include/rtti/detail/variant_impl.h. *)
Definition same_decay_id (x y : option entry) : bool :=
  match x, y with Some x, Some y => id_eqb (en_decay x) (en_decay y) | None, None => true | _, _ => false end.

(** ** Variants *)

(** variant_function_table_for<T>(), variant_impl.h:383-415, as seen from module [m]. *)
Definition table (m : nat) (c : option content) : nat :=
  copy L m (SVariant (option_map (fun c => (c_form c, c_src c)) c)).

(** variant::variant() and clear(), src/variant.cpp:7-9, 79-84: compiled into the library. *)
Definition empty_variant (m : nat) : variable := Var (table (image L m) None) None.

(** variant::empty(), src/variant.cpp:86-89: addresses of tables are compared. *)
Definition is_empty (m : nat) (v : variable) : bool :=
  (v_module v =? table (image L m) None) && match v_content v with None => true | Some _ => false end.

(** A function of the table is called: typeId, access, copy, move, destroy (variant.h:341-352). *)
Definition run_table {A} (st : state) (v : variable) (f : state -> result A) : result A :=
  if is_loaded st (v_module v) then f st else None.

(** f_type, variant_impl.h:57-70, 401-404: runs in the module of the table. *)
Definition type_in (st : state) (v : variable) (a : attr) : result ident_t :=
  run_table st v (fun st => match v_content v with None => Some (st, None) | Some c => ident (v_module v) st (type_id c a) end).

(** is<T>() called in module [m], variant.h:130-142, 354-416. *)
Definition m_is (m : nat) (st : state) (v : variable) (a : attr) (T : qty) : result (out bool) :=
  next (type_in st v a) (fun st from =>
  if is_empty m v then Some (st, Got false) else
  next (ident m st T) (fun st to =>
  next (deref st from) (fun st x =>
  next (deref st to) (fun st y =>
  Some (st,
    match compatible (described x) (described y) with
    | CFalse => Got false
    | CTerm => Term
    | CTrue =>
        if same_decay_id x y then Got true
        else match tag_of T, v_content v with
             | TagClass k, Some c => if isClass (described x) then inherits e c k else Got false
             | TagClassPtr k, Some c => if isClassPtr (described x) then inherits e c k else Got false
             | _, _ => Got false
             end
    end))))).

(** ref, cref, rref, data called in module [m], variant.h:144-248, 418-506. *)
Definition m_access (m : nat) (st : state) (v : variable) (a : accessor) (T : ty) : result (out place) :=
  next (type_in st v (from_attr a)) (fun st from =>
  next (ident m st (seen a T)) (fun st to =>
  if is_empty m v then Some (st, Throw) else
  next (deref st from) (fun st x =>
  next (deref st to) (fun st y =>
  Some (st,
    match compatible (described x) (described y) with
    | CFalse => Throw
    | CTerm => Term
    | CTrue =>
        match v_content v with
        | None => Throw
        | Some c =>
            if same_decay_id x y
            then Got (if is_array (q_ty (seen a T)) then Elements else if is_array (stored c) then Hidden else Whole)
            else match tag_of (seen a T) with
                 | TagNone => Throw
                 | TagClass k =>
                     if isClass (described x)
                     then bind (cast_imp e c k) (fun r => match r with Some z => Got (Base z) | None => Throw end)
                     else Throw
                 | TagClassPtr k =>
                     if isClassPtr (described x)
                     then bind (cast_imp e c k) (fun r =>
                          match r with
                          | Some z => if match storage_ptr c with Some p => z =? p | None => false end
                                      then Got Slot else Throw
                          | None => Throw
                          end)
                     else Throw
                 end
        end
    end))))).

(** ** Programs *)

(** What code of module [m] does. [LoadModule], [UnloadModule]: dlopen, dlclose. [TypeId]: metaTypeId<T>(). [ByName]: MetaType{name}
    (src/metatype.cpp:116-121). [Describe], [NameOf]: metaType<T>() and its properties (137-163). [Construct]: an object
    made through the type's table (src/metatype.cpp:256-260, 291-300). [Make], [Default]: a variant. [Copy], [Move],
    [Clear]: src/variant.cpp:11-84. [Empty], [Is], [Access]. [DefineClass], [FindClass]: src/metaclass.cpp:17-55
    (Simplified: no two classes of the same name).
    [DefineMethod], [Call]: src/metamethod.cpp:22-40, include/rtti/detail/metamethod_impl.h. [AddConverter],
    [DropConverter], [Convert]: src/metatype.cpp:339-364, 415-455, include/rtti/metatype.h:778-802. *)
Inductive op :=
| LoadModule (m : nat) | UnloadModule (m : nat)
| TypeId (m : nat) (q : qty) | ByName (m : nat) (n : string) | Describe (m : nat) (q : qty) | NameOf (m : nat) (q : qty)
| Construct (m : nat) (q : qty)
| Make (m : nat) (c : content) | Default (m : nat) | Copy (m i : nat) | Move (m i : nat) | Clear (m i : nat)
| Empty (m i : nat) | Is (m i : nat) (a : attr) (T : qty) | Access (m i : nat) (a : accessor) (T : ty)
| DefineClass (m : nat) (q : qty) (c : nat) | FindClass (m : nat) (q : qty)
| DefineMethod (m : nat) (n : string) (f : nat) | Call (m : nat) (n : string)
| AddConverter (m : nat) (from to : qty) (kind f : nat) | DropConverter (m : nat) (from to : qty) | Convert (m : nat) (from to : qty).

(** What the operations of [op] return, as cited there (src/metatype.cpp, src/variant.cpp). *)
Inductive answer :=
| ANothing | AId (t : ident_t) | ADescription (d : metatype) | AText (s : option string) | AIs (b : out bool)
| APlace (p : out place) | ABool (b : bool) | ANumber (n : option nat).

(** The module whose code runs.
    The functions of headers run in the module that includes them, those of the sources in an image (src/CMakeLists.txt:29-41). *)
Definition actor (o : op) : option nat :=
  match o with
  | LoadModule _ | UnloadModule _ => None
  | TypeId m _ | ByName m _ | Describe m _ | NameOf m _ | Construct m _ | Make m _ | Default m | Copy m _ | Move m _
  | Clear m _ | Empty m _ | Is m _ _ _ | Access m _ _ _ | DefineClass m _ _ | FindClass m _ | DefineMethod m _ _ | Call m _
  | AddConverter m _ _ _ _ | DropConverter m _ _ | Convert m _ _ => Some m
  end.

(** The module's own statics are gone. No line of /repo. *)
Definition forget (st : state) (m : nat) : state :=
  State (filter (fun x => negb (x =? m)) (loaded st)) (at_image (types st) m [])
    (filter (fun x => negb (fst (fst x) =? m)) (ids st)) (vars st) (at_image (items st) m []) (at_image (convs st) m [])
    (filter (fun x => negb (fst (fst x) =? m)) (objects st)).

(** Both types of a converter with their decayed identifiers, src/metatype.cpp:415-437. *)
Definition converter_key (m : nat) (st : state) (from to : qty) : result (option ((nat * nat) * (nat * nat))) :=
  next (ident m st from) (fun st a =>
  next (ident m st to) (fun st b =>
  next (deref st a) (fun st x =>
  next (deref st b) (fun st y =>
  Some (st, match x, y with Some x, Some y => Some (en_decay x, en_decay y) | _, _ => None end))))).

(** The look-up by name of src/metacontainer.cpp:54-65. *)
Definition find_item (n : string) (l : list item) : option item := find (fun x => (it_name x =? n)%string) l.
(** MetaTypeFunctionList::get, src/metatype.cpp:348-354. *)
Definition find_conv (k : (nat * nat) * (nat * nat)) (l : list converter) : option converter := find (fun x => pair_eqb (cv_key x) k) l.

(** The variable [i], if there is one. No line of /repo. *)
Definition with_var {A} (st : state) (i : nat) (f : variable -> result A) : result A :=
  match nth_error (vars st) i with Some v => f v | None => None end.

(** The destructors of the static converters of module [m], metatype.h:652-655, 687-690; last made, first destroyed. *)
Fixpoint drop_all (m : nat) (st : state) (l : list (qty * qty * nat)) : result unit :=
  match l with
  | [] => Some (st, tt)
  | (from, to, _) :: l' =>
      next (converter_key m st from to) (fun st key =>
      drop_all m (match key with
                  | None => st
                  | Some key => set_convs st (image L m) (filter (fun x => negb (pair_eqb (cv_key x) key)) (convs st (image L m)))
                  end) l')
  end.
(** The statics of include/rtti/metatype.h:786, 791 in this module. *)
Definition own_objects (st : state) (m : nat) : list (qty * qty * nat) :=
  rev (map (fun x => snd (fst x)) (filter (fun x => fst (fst x) =? m) (objects st))).
(** Their destructors, include/rtti/metatype.h:652-655, 687-690, then the module is gone. *)
Definition unload (st : state) (m : nat) : result unit :=
  next (drop_all m st (own_objects st m)) (fun st _ => Some (forget st m, tt)).

(** src/metaclass.cpp:17-42: the class of a type is set once it is created. *)
Definition set_class (l : list entry) (p : nat) (c : nat) : list entry :=
  match nth_error l p with
  | Some x => set_nth p (Entry (en_name x) (en_text x) (en_owner x) (en_decay x) (en_table x) (Some c)) l
  | None => l
  end.

(** As cited at [op]: src/metatype.cpp, src/variant.cpp, src/metaclass.cpp, src/metamethod.cpp. *)
Definition act (m : nat) (st : state) (o : op) : result answer :=
  match o with
  | LoadModule _ | UnloadModule _ => Some (st, ANothing)
  | TypeId _ q => next (ident m st q) (fun st t => Some (st, AId t))
  | ByName _ n =>
      if (n =? "")%string then Some (st, AId None) else
      match find_name st (image L m) n with
      | None => None
      | Some p => Some (st, AId (option_map (fun p => (image L m, p)) p))
      end
  | Describe _ q => next (ident m st q) (fun st t => next (deref st t) (fun st x => Some (st, ADescription (described x))))
  | NameOf _ q =>
      next (ident m st q) (fun st t => next (deref st t) (fun st x =>
      match x with
      | None => Some (st, AText None)
      | Some x => if is_loaded st (en_text x) then Some (st, AText (Some (en_name x))) else None
      end))
  | Construct _ q =>
      next (ident m st q) (fun st t => next (deref st t) (fun st x =>
      match x with
      | None => Some (st, ABool false)
      | Some x => if is_loaded st (en_table x) then Some (st, ABool true) else None
      end))
  | Make _ c => Some (set_vars st (vars st ++ [Var (table m (Some c)) (Some c)]), ANothing)
  | Default _ => Some (set_vars st (vars st ++ [empty_variant m]), ANothing)
  | Copy _ i => with_var st i (fun v => run_table st v (fun st => Some (set_vars st (vars st ++ [v]), ANothing)))
  | Move _ i => with_var st i (fun v =>
      if is_empty m v then Some (set_vars st (vars st ++ [empty_variant m]), ANothing)
      else run_table st v (fun st => Some (set_vars st (set_nth i (empty_variant m) (vars st) ++ [v]), ANothing)))
  | Clear _ i => with_var st i (fun v => run_table st v (fun st => Some (set_vars st (set_nth i (empty_variant m) (vars st)), ANothing)))
  | Empty _ i => with_var st i (fun v => Some (st, ABool (is_empty m v)))
  | Is _ i a T => with_var st i (fun v => next (m_is m st v a T) (fun st b => Some (st, AIs b)))
  | Access _ i a T => with_var st i (fun v => next (m_access m st v a T) (fun st p => Some (st, APlace p)))
  | DefineClass _ q c =>
      next (ident m st q) (fun st t => next (deref st t) (fun st x =>
      match x, t with
      | Some x, Some (i, p) =>
          match en_class x with
          | Some _ => Some (st, ABool false)
          | None => Some (set_types st i (set_class (types st i) p c), ABool true)
          end
      | _, _ => Some (st, ABool false)
      end))
  | FindClass _ q => next (ident m st q) (fun st t => next (deref st t) (fun st x =>
      Some (st, ANumber (match x with Some x => en_class x | None => None end))))
  | DefineMethod _ n f =>
      match find_item n (items st (image L m)) with
      | Some _ => Some (st, ABool false)
      | None => Some (set_items st (image L m) (items st (image L m) ++ [Item n m f]), ABool true)
      end
  | Call _ n =>
      match find_item n (items st (image L m)) with
      | None => Some (st, ANumber None)
      | Some x => if is_loaded st (it_module x) then Some (st, ANumber (Some (it_fun x))) else None
      end
  | AddConverter _ from to kind f =>
      let from := full_decay from in let to := full_decay to in
      let k := (copy L m (SConverter from to kind), (from, to, kind)) in
      let '(st, g) := match assoc object_eqb k (objects st) with Some g => (st, g) | None => (add_object st k f, f) end in
      next (converter_key m st from to) (fun st key =>
      match key with
      | None => Some (st, ABool false)
      | Some key =>
          match find_conv key (convs st (image L m)) with
          | Some _ => Some (st, ABool false)
          | None => Some (set_convs st (image L m) (convs st (image L m) ++ [Converter key (fst k) g]), ABool true)
          end
      end)
  | DropConverter _ from to =>
      next (converter_key m st from to) (fun st key =>
      match key with
      | None => Some (st, ANothing)
      | Some key => Some (set_convs st (image L m) (filter (fun x => negb (pair_eqb (cv_key x) key)) (convs st (image L m))), ANothing)
      end)
  | Convert _ from to =>
      next (converter_key m st from to) (fun st key =>
      match key with
      | None => Some (st, ANumber None)
      | Some key =>
          match find_conv key (convs st (image L m)) with
          | None => Some (st, ANumber None)
          | Some x => if is_loaded st (cv_module x) then Some (st, ANumber (Some (cv_fun x))) else None
          end
      end)
  end.

(** Loading and unloading have no line of /repo. *)
Definition exec (st : state) (o : op) : result answer :=
  match actor o with
  | Some m => if is_loaded st m then act m st o else None
  | None =>
      match o with
      | LoadModule m => Some (State (m :: loaded st) (types st) (ids st) (vars st) (items st) (convs st) (objects st), ANothing)
      | UnloadModule m => if is_loaded st m then next (unload st m) (fun st _ => Some (st, ANothing)) else None
      | _ => None
      end
  end.

(** A program: operations one after the other, no line of /repo. *)
Fixpoint run (st : state) (h : list op) : result (list answer) :=
  match h with
  | [] => Some (st, [])
  | o :: h' => next (exec st o) (fun st a => next (run st h') (fun st l => Some (st, a :: l)))
  end.

(** The end of the process, src/metanamespace.cpp:9-17, src/private/metacontainer_p.h:29-32: the registered items of the
    image [i] are deleted with their invokers. *)
Definition at_exit (st : state) (i : nat) : bool := forallb (fun x => is_loaded st (it_module x)) (items st i).

End Process.
