(** Model of calling methods and using properties of a variant by name: variant::invoke, set_property and get_property
    (include/rtti/detail/variant_impl.h:501-560, src/variant.cpp:116-133), from the query to the call. The call is that of
    ReturnModel.v, the look-up that of InheritModel.v and StringsModel.v. *)
From Coq Require Import NArith List Bool Arith.
From Verif Require Import TypesModel InheritModel StringsModel AccModel CallModel ReturnModel.
Import ListNotations.

(** What the classes have registered themselves, in order of registration: methods under name and parameters
    (src/metamethod.cpp, include/rtti/signature.h), properties under their names (C07: names occur once). Lazy definitions
    have run. *)
Record classes := Classes { methods : nat -> list (text * function); properties : nat -> list (text * property) }.

(** How the three functions end: they throw rtti::runtime_error for one of three reasons; they do something ([Ran]); they are
    undefined; the look-up does not end. include/rtti/detail/variant_impl.h:501-560. *)
Inductive refusal := Not_a_class | Not_registered | Not_found.
(** include/rtti/detail/variant_impl.h:501-560. *)
Inductive dispatched (A : Type) := Refused (r : refusal) | Ran (a : A) | Wild | Endless.
Arguments Refused {A}. Arguments Ran {A}. Arguments Wild {A}. Arguments Endless {A}.

(** Of the monad, no line of /repo. *)
Definition whenRan {A B} (d : dispatched A) (f : A -> dispatched B) : dispatched B :=
  match d with Ran a => f a | Refused r => Refused r | Wild => Wild | Endless => Endless end.

(** `type.isClass() || type.isClassPtr()` and `this->metaClass()` (variant_impl.h:506-509, variant.h:124-128): the class that
    classInfo tells, if it is registered. Arrays have none (variant_impl.h:337-381), and an invalid type no class. *)
Definition class_of_variant (e : env) (v : option content) : dispatched nat :=
  if holds_class v || holds_class_ptr v then
    match v with
    | None => Refused Not_a_class
    | Some c =>
        match class_info e c with
        | Got (Some (d, _)) => if e_registered e d then Ran d else Refused Not_registered
        | Got None => Refused Not_registered
        | _ => Wild
        end
    end
  else Refused Not_a_class.

(** MetaContainer::getMethodInternal, src/metacontainer.cpp:315-319: what a class itself answers. *)
Definition own_method (db : classes) (name : text) (k : nat) : option function :=
  match findMethod fst (methods db k) name with FSome (_, f) => Some f | _ => None end.

(** MetaContainer::getPropertyInternal, src/metacontainer.cpp:355-358: found under its name (C07). *)
Definition own_property (db : classes) (name : text) (k : nat) : option property :=
  match find (fun np => text_eqb (fst np) name) (properties db k) with Some (_, p) => Some p | None => None end.

(** std::string_view::empty, no line of /repo. *)
Definition is_empty (name : text) : bool := match name with [] => true | _ => false end.

(** `mt_class->getMethod(name)` and `mt_class->getProperty(name)` with the classes they search (src/metaclass.cpp:181-235),
    on the class of a variant. *)
Definition find_member {M} (e : env) (own : nat -> option M) (name : text) (v : option content) : dispatched M :=
  whenRan (class_of_variant e v) (fun d =>
  match getMember own (is_empty name) (e_graph e) (fuel e) d with
  | Ok (Some m) => Ran m
  | Ok None => Refused Not_found
  | UB => Wild
  | Fuel => Endless
  end).

(** variant::invoke, variant_impl.h:501-539, on a variant that is [is_const] or not; `*this` is passed as an lvalue. *)
Definition invoke_by_name (tr : traits) (e : env) (l : layout) (db : classes) (is_const : bool) (v : option content)
    (name : text) (args : list given) : dispatched (option (outcome result)) :=
  whenRan (find_member e (own_method db name) name v) (fun f => Ran (invoke tr e l f ((false, Variant is_const v) :: args))).

(** variant::set_property, variant_impl.h:542-560 (not on const variants), and variant::get_property,
    src/variant.cpp:116-133 (on const ones). *)
Definition set_by_name (e : env) (read : argument -> bound -> nat) (db : classes) (v : option content) (name : text)
    (a : argument) (m : memory) : memory * dispatched (outcome unit) :=
  match find_member e (own_property db name) name v with
  | Ran p => let (m', o) := property_set e read p (Some (ByVariant false v)) a m in (m', Ran o)
  | Refused r => (m, Refused r)
  | Wild => (m, Wild)
  | Endless => (m, Endless)
  end.
(** variant::get_property, src/variant.cpp:116-133. *)
Definition get_by_name (e : env) (db : classes) (v : option content) (name : text) (m : memory) : dispatched (outcome view) :=
  whenRan (find_member e (own_property db name) name v) (fun p => Ran (property_get e p (Some (ByVariant true v)) m)).
