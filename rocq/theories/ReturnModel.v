(** Model of what MetaMethod::invoke and MetaConstructor::invoke give back: include/rtti/metadefine.h:104-596,
    include/rtti/detail/metamethod_impl.h, include/rtti/metaconstructor.h:19-25, the constructor of a variant
    (include/rtti/detail/variant_impl.h:434-451). Arguments and the calls themselves are those of CallModel.v. *)
From Coq Require Import NArith List Bool Arith.
From Verif Require Import TypesModel InheritModel AccModel CallModel.
Import ListNotations.

(** ** Functions *)

(** What the type of a function says it returns (result_type, include/rtti/function_traits.h): nothing; a value or a
    reference of type [q] (for references to variants [q] is the class of variants); a variant by value; a
    std::reference_wrapper<T>, by value or by reference (std::ref of a wrapper is the wrapper). *)
Inductive result_type := RVoid | RType (q : qty) | RVariant | RWrapper (T : ty).

(** What a function returns a reference to (no line of /repo): an object elsewhere, one inside the object it was called
    on, or what its i-th parameter is. *)
Inductive spot := Outside (x : nat) | InObject (offset : nat) | InParam (i : nat).

(** A value: if it is a pointer, where it points; what it is compared by; its bytes (see AccModel.content). No line of /repo. *)
Record datum := Datum { d_ptr : option nat; d_vals : list nat; d_bytes : list nat }.

(** What a function hands to its caller (no line of /repo); [d] of a reference: the value of the object at the moment. *)
Inductive answer := Nil | Refers (s : spot) (d : datum) | Yields (d : datum) | Gives (v : option content).

(** A registered function (metadefine.h:438-498): static or member, its result type and what it does when called;
    [None]: it throws. *)
Record function := Function { f_kind : method; f_returns : result_type; f_body : call -> option answer }.

(** ** Where things are (no line of /repo) *)

(** The addresses of: the content of the variant that is returned; the content of the variant that is made of an instance
    that is none; whatever the argument number [i] keeps inside itself, m_dummy (variant.h:673) or m_value's pointer. *)
Record layout := Layout { at_result : nat; at_instance : nat; at_argument : nat -> nat }.

(** The object an argument refers to. m_value of include/rtti/variant.h:632-680. *)
Definition referent (a : argument) : option content :=
  match g_value a with Some r => const_content r | None => None end.

(** The address of what a parameter is bound to: an object of the caller or its base (argument_impl.h:29-30, 53-54, 80);
    m_dummy, or the copy that is the parameter (32-34, 56-58, 99); the pointer in the argument's variant. *)
Definition bound_at (l : layout) (i : nat) (a : argument) (b : bound) : nat :=
  match b with
  | Direct Whole | Direct Elements => match referent a with Some c => c_at c | None => at_argument l i end
  | Direct (Base z) => z
  | Direct Hidden | Direct Slot => at_argument l i
  | Temp _ => at_argument l i
  end.

(** The address of a spot; a static function has no object and a function only the parameters it has.
    No line of /repo: the user's function. *)
Definition spot_at (l : layout) (args : list argument) (c : call) (s : spot) : outcome nat :=
  match s with
  | Outside x => Done x
  | InObject off => match on c with Some x => Done (x + off) | None => Undefined end
  | InParam i =>
      match nth_error args i, nth_error (args_of c) i with
      | Some a, Some b => Done (bound_at l i a b)
      | _, _ => Undefined
      end
  end.

(** Does it exist after the call? The variant made of an instance dies with the call (variant.h:696-707: a temporary bound
    to `variant const&`), and with it an object held by value; so do the arguments, which are parameters of the virtual
    functions (690-707), with their m_dummy and m_value; what an argument refers to stays. *)
Definition survives (i : option instance) (args : list argument) (c : call) (s : spot) : bool :=
  match s with
  | Outside _ => true
  | InObject _ =>
      match i with
      | Some (ByOther o) => match c_form o with Val => negb (holds_class (Some o)) | Refw => true end
      | _ => true
      end
  | InParam j =>
      match nth_error (args_of c) j with
      | Some (Direct Hidden) | Some (Direct Slot) =>
          match nth_error args j with
          | Some a => match g_value a with Some (Inner _ _) => true | _ => false end
          | None => false
          end
      | Some (Direct _) => true
      | _ => false
      end
  end.

(** ** Results *)

(** What invoke gives: the call that was made, if one was; the content of the variant; whether what it refers to exists.
    include/rtti/metadefine.h:104-596. *)
Record result := Result { r_called : option call; r_variant : option content; r_alive : bool }.

(** A variant of std::reference_wrapper<T> (variant_impl.h:119-185) and one of a T (52-117, 187-335). *)
Definition refer_to (T : ty) (x : nat) (d : datum) : content :=
  {| c_form := Refw; c_src := T; c_at := x; c_ptr := d_ptr d; c_vals := d_vals d; c_bytes := d_bytes d |}.
(** include/rtti/detail/variant_impl.h:52-117, 187-335. *)
Definition keep (T : ty) (x : nat) (d : datum) : content :=
  {| c_form := Val; c_src := T; c_at := x; c_ptr := d_ptr d; c_vals := d_vals d; c_bytes := d_bytes d |}.

(** `variant::empty_variant` after a void function (metadefine.h:156, 309, 322); std::ref of a reference (215-216,
    398-399); a variant of a value (218, 401); a variant returned by value is copied or moved (variant.h:79-82). What a
    variant that the function returns itself refers to is not followed. [Undefined]: not what the function's type says. *)
Definition deliver (l : layout) (i : option instance) (args : list argument) (f : function) (c : call) : outcome result :=
  match f_body f c with
  | None => Exception
  | Some a =>
      match f_returns f, a with
      | RVoid, Nil => Done (Result (Some c) None true)
      | RType (mkQ RL T), Refers s d | RWrapper T, Refers s d =>
          andThen (spot_at l args c s) (fun x => Done (Result (Some c) (Some (refer_to T x d)) (survives i args c s)))
      | RType (mkQ RNone T), Yields d => Done (Result (Some c) (Some (keep T (at_result l) d)) true)
      | RVariant, Gives v => Done (Result (Some c) v true)
      | _, _ => Undefined
      end
  end.

(** std::is_copy_constructible_v and std::is_move_constructible_v. As asked in include/rtti/detail/variant_impl.h:439-445. *)
Record traits := Traits { copyable : ty -> bool; movable : ty -> bool }.

(** The static_assert in variant's constructor (variant_impl.h:439-445), [rvalue]: not of a reference. *)
Definition into_variant (tr : traits) (rvalue : bool) (T : ty) : bool :=
  let U := element T in copyable tr U || (rvalue && negb (is_const T) && movable tr U).

(** The prvalue of a call is const only if its class type is. No line of /repo: C++. *)
Definition prvalue (T : ty) : ty :=
  match T with TBase _ _ b => if kind_is KClass b then T else strip T | _ => strip T end.

(** Does the registration compile? std::ref of an rvalue is deleted (metadefine.h:216, 399); a value goes into a variant. *)
Definition compiles (tr : traits) (r : result_type) : bool :=
  match r with
  | RType (mkQ RR _) => false
  | RType (mkQ RNone T) => into_variant tr true (prvalue T)
  | RVoid | RType (mkQ RL _) | RVariant | RWrapper _ => true
  end.

(** ** Calls *)

(** What the caller writes: an rvalue or an lvalue, and what it is. No line of /repo. *)
Definition given : Type := bool * passed.

(** include/rtti/detail/argument_impl.h:6-10. *)
Definition as_argument (g : given) : argument := make_argument (fst g) (snd g).

(** As instance (variant.h:83-87, 696-707): an lvalue variant that is not const binds to `variant&`, other variants to
    `variant const&`; of everything else a variant is made: of an object a copy of it. *)
Definition as_instance (l : layout) (g : given) : instance :=
  match snd g with
  | Variant k v => ByVariant (k || fst g) v
  | Wrapped c => ByOther (by_reference c)
  | Object c => ByOther (keep (c_src c) (at_instance l) (Datum (c_ptr c) (c_vals c) (c_bytes c)))
  end.

(** Can a variant be made of it. include/rtti/variant.h:83-87. *)
Definition may_be_instance (tr : traits) (g : given) : bool :=
  match snd g with Object c => into_variant tr (fst g) (c_src c) | Wrapped _ | Variant _ _ => true end.

(** MetaMethod::invoke, metamethod_impl.h:6-16; [None]: does not compile. Both branches are compiled whatever the function
    is: there has to be a first argument and it has to be good for an instance. *)
Definition invoke (tr : traits) (e : env) (l : layout) (f : function) (gs : list given) : option (outcome result) :=
  if negb (compiles tr (f_returns f)) then None else
  match gs with
  | [] => None
  | g :: rest =>
      if (10 <? length gs) || negb (may_be_instance tr g) then None else
      Some match f_kind f with
           | Static params =>
               andThen (invoke_static e params (map as_argument gs)) (deliver l None (map as_argument gs) f)
           | OfClass m =>
               let i := as_instance l g in
               let '(k, v) := instance_variant i in
               andThen (invoke_method e k v m (map as_argument rest)) (fun o =>
               match o with
               | None => Done (Result None None true)
               | Some c => deliver l (Some i) (map as_argument rest) f c
               end)
           end
  end.

(** A constructor of [C] (metadefine.h:506-596) is a static function that returns a [C] (590-595). *)
Definition constructor (C : ty) (params : list qty) (build : call -> option datum) : function :=
  {| f_kind := Static params; f_returns := RType (mkQ RNone C);
     f_body := fun c => match build c with Some d => Some (Yields d) | None => None end |}.

(** MetaConstructor::invoke, metaconstructor.h:19-25: all are arguments, there may be none. *)
Definition construct (tr : traits) (e : env) (l : layout) (C : ty) (params : list qty) (build : call -> option datum)
    (gs : list given) : option (outcome result) :=
  if negb (compiles tr (RType (mkQ RNone C))) || (10 <? length gs) then None else
  Some (andThen (invoke_static e params (map as_argument gs))
                (deliver l None (map as_argument gs) (constructor C params build))).

(** ** What a method says of itself *)

(** The library's and the standard's class types: void, rtti::variant, std::reference_wrapper<T>.
    No line of /repo but include/rtti/variant.h:56. *)
Record library := Library { void_type : base; variant_class : base; wrapper_class : ty -> base }.

(** returnTypeId, metadefine.h:114-115, 172-173, 232-233, 336-337, 524-527. *)
Definition returnTypeId (lib : library) (f : function) : qty :=
  match f_returns f with
  | RVoid => mkQ RNone (TBase false false (void_type lib))
  | RType q => q
  | RVariant => mkQ RNone (TBase false false (variant_class lib))
  | RWrapper T => mkQ RNone (TBase false false (wrapper_class lib T))
  end.

(** parametersTypeId, metadefine.h:116-117, 146-150, 529-532. *)
Definition parametersTypeId (f : function) : list qty :=
  match f_kind f with Static params => params | OfClass m => m_params m end.

(** variant::typeId, variant.h:121-122; [None]: the invalid identifier of an empty variant. *)
Definition v_typeId (v : option content) : option qty := match v with Some c => Some (type_id c ANone) | None => None end.
