(** Model of the objects of static storage duration of the library over the whole life of a program: constructed on
    first use or when their translation unit is initialised, destroyed in the reverse order when the program ends.

    One thread. Left out: the statics whose destructors do nothing (the holders of metaTypeId<T>(), the tables of
    type_function_table_for<T>(), the objects of RTTI_REGISTER, include/rtti/metadefine.h:1073-1086); what the
    destructors of attribute values do when the global namespace goes; empty_string (src/metaitem.cpp:8-10), which
    behaves as empty_variant does. *)
From Coq Require Import List Bool Arith.
Import ListNotations.

(** The objects: [OTypes] is the registry of types, src/metatype.cpp:95-103; [OList] the table of converters, 386-393;
    [OGlobal] the global namespace with everything it owns, src/metanamespace.cpp:13-17; [OEmpty] is
    variant::empty_variant, src/variant.cpp:5; [OConv c] the static converter of the [c]-th registration in the
    program's text, include/rtti/metatype.h:786, 791, 822, 839; [OUser u] a static object of the program. *)
Inductive obj := OTypes | OList | OGlobal | OEmpty | OConv (c : nat) | OUser (u : nat).

(** Equality, no line of /repo. *)
Definition obj_eq_dec (a b : obj) : {a = b} + {a <> b}.
Proof. decide equality; apply Nat.eq_dec. Defined.

(** What a program does with the library, in main, in the constructor of a static object (the calls then come before
    its [Make]) or in its destructor:
    [Use t]: metaTypeId<t>() and a query of MetaType{that}, src/metatype.cpp:110-127;
    [Held t]: a query of a MetaType obtained by an earlier [Use t] (src/metatype.cpp:129-170);
    [Register c]: MetaType::registerConverter of the [c]-th place, include/rtti/metatype.h:778-802;
    [Unregister k], [Convert k]: MetaType::unregisterConverter and convert for the pair [k], src/metatype.cpp:427-456;
    [Define t]: global_define()._class<t>, src/metadefine.cpp:5-9 and src/metaclass.cpp:17-42;
    [Find t]: MetaClass::find and a query of the class found, src/metaclass.cpp:44-54, 62-67;
    [Browse]: a query of MetaNamespace::global(), src/metanamespace.cpp:13-17;
    [Missing]: asking an item for an attribute it does not have, src/metaitem.cpp:14-31, and using the answer;
    [Load]: the dynamic initialisation of src/variant.cpp;
    [Make u]: the constructor of the static object [u] completes. *)
Inductive call :=
  | Use (t : nat) | Held (t : nat) | Register (c : nat) | Unregister (k : nat) | Convert (k : nat)
  | Define (t : nat) | Find (t : nat) | Browse | Missing | Load | Make (u : nat).

(** Touching something that does not exist: the registry, the table, a converter, the definition of a static that was
    destroyed ([FStatic]), the description behind a MetaType, a class, the global namespace, empty_variant.
    src/metatype.cpp:95-103, 388-397, src/metanamespace.cpp:9-17. *)
Inductive fault := FTypes | FList | FConverter | FStatic | FHandle | FClass | FGlobal | FEmpty.

(** What the caller sees: whether a type was found, which converter was used, whether a class was found.
    As the functions of src/metatype.cpp do. *)
Inductive answer := AUnit | AType (valid : bool) | AConv (used : option nat) | AClass (found : bool).

(** No line of /repo. *)
Inductive res (A : Type) := Ok (a : A) | Bad (f : fault).
Arguments Ok {A} _.
Arguments Bad {A} _.

(** [order]: the objects alive, the one constructed last first; [dead]: the destroyed ones; [tflag], [lflag]: the two
    members Destroyed, src/metatype.cpp:39, 374; [kept]: the types whose MetaType the program holds; [items]: the table,
    src/metatype.cpp:372; [classes]: the types whose TypeInfo points to a MetaClass, src/metaclass.cpp:27, 34. *)
Record st := St {
  order : list obj; dead : list obj; tflag : bool; lflag : bool;
  kept : list nat; items : list (nat * nat); classes : list nat }.

(** Before the first initialisation: nothing constructed, flags false (src/metatype.cpp:43, 378). *)
Definition st0 : st := St [] [] false false [] [] [].

(** Is [o] alive; was it destroyed. No code; ghost of the lifetime rules of C++. No line of /repo. *)
Definition alive (o : obj) (s : st) : bool := if in_dec obj_eq_dec o (order s) then true else false.
(** No line of /repo. *)
Definition destroyed (o : obj) (s : st) : bool := if in_dec obj_eq_dec o (dead s) then true else false.

(** The constructor of [o] completes: it will be destroyed before everything constructed so far. No line of /repo: C++. *)
Definition construct (o : obj) (s : st) : st :=
  St (o :: order s) (dead s) (tflag s) (lflag s) (kept s) (items s) (classes s).

(** Control passes through [static T o;] and the object is then used, with the fault [f] if it was destroyed before.
    No line of /repo: C++. *)
Definition static (o : obj) (f : fault) (s : st) : res st :=
  if alive o s then Ok s else if destroyed o s then Bad f else Ok (construct o s).

(** customTypes(), src/metatype.cpp:95-103: false is a null pointer. *)
Definition custom_types (s : st) : res (bool * st) :=
  if tflag s then Ok (false, s) else match static OTypes FTypes s with Ok s' => Ok (true, s') | Bad f => Bad f end.

(** customConverters(), src/metatype.cpp:386-393. *)
Definition custom_list (s : st) : res (bool * st) :=
  if lflag s then Ok (false, s) else match static OList FList s with Ok s' => Ok (true, s') | Bad f => Bad f end.

(** MetaType{from}.valid() && MetaType{to}.valid(), then customConverters(), src/metatype.cpp:417-422, 429-431, 447-454.
    Both types are valid exactly if the registry exists: metaTypeId registers them (C04). *)
Definition converter_list (s : st) : res (bool * st) :=
  match custom_types s with
  | Ok (true, s') => custom_list s'
  | r => r
  end.

(** MetaTypeFunctionList::get, add and remove, src/metatype.cpp:342-364. *)
Definition get (k : nat) (s : st) : option nat :=
  match find (fun e => fst e =? k) (items s) with Some e => Some (snd e) | None => None end.
(** m_items of src/metatype.cpp:378. *)
Definition set_items (l : list (nat * nat)) (s : st) : st :=
  St (order s) (dead s) (tflag s) (lflag s) (kept s) l (classes s).
(** MetaTypeFunctionList::add, src/metatype.cpp:336-347. *)
Definition add (k c : nat) (s : st) : st :=
  match get k s with Some _ => s | None => set_items ((k, c) :: items s) s end.
(** MetaTypeFunctionList::remove, src/metatype.cpp:360-364. *)
Definition remove (k : nat) (s : st) : st := set_items (filter (fun e => negb (fst e =? k)) (items s)) s.

(** The program holds a MetaType of [t] from now on; the TypeInfo of [t] points to a class from now on.
    src/private/metatype_p.h:24. *)
Definition keep (t : nat) (s : st) : st :=
  St (order s) (dead s) (tflag s) (lflag s) (t :: kept s) (items s) (classes s).
(** src/private/metatype_p.h:24. *)
Definition link (t : nat) (s : st) : st :=
  St (order s) (dead s) (tflag s) (lflag s) (kept s) (items s) (t :: classes s).

(** No line of /repo. *)
Definition mem (t : nat) (l : list nat) : bool := if in_dec Nat.eq_dec t l then true else false.

(** One call. [key c] is the pair of types of the [c]-th registration. *)
Definition step (key : nat -> nat) (x : call) (s : st) : res (answer * st) :=
  match x with
  | Use t =>                                               (* src/metatype.cpp:110-127 *)
      match custom_types s with
      | Ok (true, s') => Ok (AType true, keep t s')
      | Ok (false, s') => Ok (AType false, s')
      | Bad f => Bad f
      end
  | Held t =>                                              (* src/metatype.cpp:129-170, reads m_typeInfo *)
      if mem t (kept s) then (if alive OTypes s then Ok (AType true, s) else Bad FHandle) else Ok (AType false, s)
  | Register c =>                                          (* include/rtti/metatype.h:784-793, src/metatype.cpp:415-425 *)
      match static (OConv c) FStatic s with
      | Ok s1 =>
          match converter_list s1 with
          | Ok (true, s2) => Ok (AUnit, add (key c) c s2)
          | Ok (false, s2) => Ok (AUnit, s2)
          | Bad f => Bad f
          end
      | Bad f => Bad f
      end
  | Unregister k =>                                        (* src/metatype.cpp:447-456 *)
      match converter_list s with
      | Ok (true, s') => Ok (AUnit, remove k s')
      | Ok (false, s') => Ok (AUnit, s')
      | Bad f => Bad f
      end
  | Convert k =>                                           (* src/metatype.cpp:427-437 *)
      match converter_list s with
      | Ok (true, s') =>
          match get k s' with
          | Some c => if alive (OConv c) s' then Ok (AConv (Some c), s') else Bad FConverter
          | None => Ok (AConv None, s')
          end
      | Ok (false, s') => Ok (AConv None, s')
      | Bad f => Bad f
      end
  | Define t =>                                            (* src/metadefine.cpp:5-9, src/metaclass.cpp:17-42 *)
      match static OGlobal FGlobal s with
      | Ok s1 =>
          match custom_types s1 with
          | Ok (true, s2) => Ok (AClass true, link t s2)
          | Ok (false, s2) => Ok (AClass false, s2)        (* invalid_metatype_id is thrown, src/metaclass.cpp:25-26 *)
          | Bad f => Bad f
          end
      | Bad f => Bad f
      end
  | Find t =>                                              (* src/metaclass.cpp:44-54 *)
      match custom_types s with
      | Ok (true, s') =>
          if mem t (classes s') then (if alive OGlobal s' then Ok (AClass true, s') else Bad FClass)
          else Ok (AClass false, s')
      | Ok (false, s') => Ok (AClass false, s')
      | Bad f => Bad f
      end
  | Browse =>                                              (* src/metanamespace.cpp:13-17 *)
      match static OGlobal FGlobal s with Ok s' => Ok (AUnit, s') | Bad f => Bad f end
  | Missing =>                                             (* src/metaitem.cpp:18, 30 *)
      if alive OEmpty s then Ok (AUnit, s) else Bad FEmpty
  | Load =>                                                (* src/variant.cpp:5 *)
      if alive OEmpty s || destroyed OEmpty s then Ok (AUnit, s) else Ok (AUnit, construct OEmpty s)
  | Make u =>                                              (* a static object of the program *)
      if alive (OUser u) s || destroyed (OUser u) s then Ok (AUnit, s) else Ok (AUnit, construct (OUser u) s)
  end.

(** A sequence of calls with their answers; it ends with the first fault. No line of /repo: the program. *)
Fixpoint run (key : nat -> nat) (l : list call) (s : st) : res (list answer * st) :=
  match l with
  | [] => Ok ([], s)
  | x :: r =>
      match step key x s with
      | Ok (a, s') => match run key r s' with Ok (al, s'') => Ok (a :: al, s'') | Bad f => Bad f end
      | Bad f => Bad f
      end
  end.

(** The calls in the destructor of an object: ~ConvertFunctor and its siblings unregister their pair of types,
    include/rtti/metatype.h:652-655, 687-690, 715-718, 749-752; those of the program do what it says. *)
Definition body (key : nat -> nat) (dtor : nat -> list call) (o : obj) : list call :=
  match o with
  | OConv c => [Unregister (key c)]
  | OUser u => dtor u
  | _ => []
  end.

(** What the destructors of the registry and of the table leave, src/metatype.cpp:47-53, 326-331; the other objects
    leave nothing: a TypeInfo still points to the classes of a destroyed global namespace. From the start of its
    destructor the object counts as destroyed, which is stricter than C++. *)
Definition perish (o : obj) (r : list obj) (s : st) : st :=
  St r (o :: dead s)
     (match o with OTypes => true | _ => tflag s end)
     (match o with OList => true | _ => lflag s end)
     (kept s)
     (match o with OList => [] | _ => items s end)
     (match o with OTypes => [] | _ => classes s end).

(** The end of the program: [n] times, the object constructed last is destroyed.
    No line of /repo: C++; what the destructors do is src/metatype.cpp:47-53, 328-333. *)
Fixpoint leave (key : nat -> nat) (dtor : nat -> list call) (n : nat) (s : st) : res (list answer * st) :=
  match n with
  | 0 => Ok ([], s)
  | S m =>
      match order s with
      | [] => Ok ([], s)
      | o :: r =>
          match run key (body key dtor o) (perish o r s) with
          | Ok (al, s') => match leave key dtor m s' with Ok (bl, s'') => Ok (al ++ bl, s'') | Bad f => Bad f end
          | Bad f => Bad f
          end
      end
  end.

(** A whole program: its calls up to the end of main, then the first [n] destructions. No line of /repo. *)
Definition life (key : nat -> nat) (dtor : nat -> list call) (main : list call) (n : nat) : res (list answer * st) :=
  match run key main st0 with
  | Ok (al, s) => match leave key dtor n s with Ok (bl, s') => Ok (al ++ bl, s') | Bad f => Bad f end
  | Bad f => Bad f
  end.
