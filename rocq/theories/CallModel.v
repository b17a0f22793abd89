(** Model of arguments, method calls and properties: include/rtti/detail/argument_impl.h, include/rtti/variant.h:632-834,
    include/rtti/detail/metamethod_impl.h, include/rtti/metadefine.h:76-832, include/rtti/detail/variant_impl.h:501-560.
    Contents, accessors and conversions are those of AccModel.v. *)
From Coq Require Import NArith List Bool Arith.
From Verif Require Import TypesModel InheritModel AccModel.
Import ListNotations.

(** How a call ends: it returns, throws invoke_error, throws something else, ...
    include/rtti/detail/metamethod_impl.h, include/rtti/metadefine.h:76-832. *)
Inductive outcome (A : Type) := Done (a : A) | Invoke_error | Exception | Undefined | Terminated | Stuck.
Arguments Done {A}. Arguments Invoke_error {A}. Arguments Exception {A}. Arguments Undefined {A}.
Arguments Terminated {A}. Arguments Stuck {A}.

(** An answer of AccModel.v as the end of a call, no line of /repo. *)
Definition run {A} (m : out A) : outcome A :=
  match m with Got a => Done a | Throw => Exception | Undef => Undefined | Term => Terminated | Loop => Stuck end.

(** Of the monad, no line of /repo. *)
Definition andThen {A B} (m : outcome A) (f : A -> outcome B) : outcome B :=
  match m with
  | Done a => f a | Invoke_error => Invoke_error | Exception => Exception | Undefined => Undefined
  | Terminated => Terminated | Stuck => Stuck
  end.

(** ** Arguments *)

(** What the caller writes: an object, a std::reference_wrapper, or a variant (const or not) with its content.
    include/rtti/detail/argument_impl.h:6-10. *)
Inductive passed := Object (c : content) | Wrapped (c : content) | Variant (is_const : bool) (v : option content).

(** What m_value refers to (isVariant(), variant.h:652-653, tells the two apart). *)
Inductive referred := Plain (c : content) | Inner (is_const : bool) (v : option content).

(** include/rtti/variant.h:632-674; [None]: a default argument. *)
Record argument := Argument { g_rvalue : bool; g_value : option referred }.

(** std::ref of what is passed, include/rtti/detail/argument_impl.h:6-10. *)
Definition by_reference (c : content) : content :=
  {| c_form := Refw; c_src := c_src c; c_at := c_at c; c_ptr := c_ptr c; c_vals := c_vals c; c_bytes := c_bytes c |}.

(** argument(T&&), argument_impl.h:6-10. std::ref of a reference_wrapper is the wrapper itself. *)
Definition make_argument (rvalue : bool) (p : passed) : argument :=
  {| g_rvalue := rvalue;
     g_value := Some match p with Object c => Plain (by_reference c) | Wrapped c => Plain (by_reference c)
                                | Variant k v => Inner k v end |}.

(** variant.h:635, `argument{}`: value-initialised. *)
Definition no_argument : argument := {| g_rvalue := false; g_value := None |}.

(** A reference to the argument, or a temporary (the returned value, or m_dummy). include/rtti/detail/argument_impl.h:13-110. *)
Inductive bound := Direct (p : place) | Temp (g : got).

(** `&m_value.ref<variant>()` (argument_impl.h:24-25, 72-73): throws on a const variant. *)
Definition mutable_content (r : referred) : out (option content) :=
  match r with Plain c => Got (Some c) | Inner true _ => Throw | Inner false v => Got v end.

(** `&m_value.cref<variant>()` (46-47, 90-91). Of include/rtti/detail/argument_impl.h. *)
Definition const_content (r : referred) : option content := match r with Plain c => Some c | Inner _ v => v end.

(** argument_impl.h:13-37 *)
Definition value_rref (e : env) (rvalue : bool) (r : referred) (T : ty) : out bound :=
  if negb rvalue then Throw else
  AccModel.bind (mutable_content r) (fun v =>
  AccModel.bind (access e DataL v T) (fun d =>
  match d with
  | Some p => Got (Direct p)
  | None => AccModel.bind (v_to e false v T) (fun g => Got (Temp g))
  end)).

(** argument_impl.h:40-59 *)
Definition value_cref (e : env) (r : referred) (T : ty) : out bound :=
  AccModel.bind (access e DataC (const_content r) T) (fun d =>
  match d with
  | Some p => Got (Direct p)
  | None => AccModel.bind (v_to e true (const_content r) T) (fun g => Got (Temp g))
  end).

(** argument_impl.h:62-81 *)
Definition value_lref (e : env) (rvalue : bool) (r : referred) (T : ty) : out bound :=
  if rvalue then Throw else
  AccModel.bind (mutable_content r) (fun v =>
  AccModel.bind (access e RefL v T) (fun d => match d with Some p => Got (Direct p) | None => Throw end)).

(** argument_impl.h:84-100 *)
Definition value_copy (e : env) (r : referred) (T : ty) : out bound :=
  AccModel.bind (v_to e true (const_content r) T) (fun g => Got (Temp g)).

(** argument::value<T>, argument_impl.h:102-115; [q] is the parameter's type. std::decay_t<T> is [decay]. *)
Definition arg_value (e : env) (a : argument) (q : qty) : out bound :=
  match g_value a with
  | None => Throw
  | Some r =>
      let T := decay (q_ty q) in
      match q_ref q with
      | RR => value_rref e (g_rvalue a) r T
      | RL => if is_const (q_ty q) then value_cref e r T else value_lref e (g_rvalue a) r T
      | RNone => value_copy e r T
      end
  end.

(** ** Calls *)

(** argument::empty, include/rtti/variant.h:632-660. *)
Definition empty (a : argument) : bool := match g_value a with None => true | Some _ => false end.

(** The loop of metadefine.h:91-96 on a std::size_t. *)
Fixpoint count_down (count : N) (l : list argument) : N :=
  match l with
  | [] => count
  | a :: l' => if empty a then count else count_down ((count + (2 ^ 64 - 1)) mod 2 ^ 64)%N l'
  end.

(** The ten parameters of the virtual functions with their default arguments, variant.h:690-707. *)
Definition ten (l : list argument) : list argument := firstn 10 (l ++ repeat no_argument 10).

(** pack_arguments, metadefine.h:80-102. *)
Definition pack_arguments (count : nat) (l : list argument) : outcome (list argument) :=
  if (count_down (N.of_nat count) (ten l) =? 0)%N then Done (ten l) else Invoke_error.

(** `args[I]->value<argument_get_t<I>>()...`: the order in which arguments are evaluated is not specified in C++;
    here from left to right (only which exception leaves depends on it). include/rtti/metadefine.h:104-220. *)
Fixpoint bind_all (e : env) (params : list qty) (args : list argument) : outcome (list bound) :=
  match params with
  | [] => Done []
  | q :: params' =>
      match args with
      | [] => Undefined
      | a :: args' => andThen (run (arg_value e a q)) (fun b => andThen (bind_all e params' args') (fun bs => Done (b :: bs)))
      end
  end.

(** One call of the registered function: the object it is called on, if it is a member; the arguments.
    The calls of include/rtti/metadefine.h:104-435. *)
Record call := Call { on : option nat; args_of : list bound }.

(** method_invoker for static functions, metadefine.h:104-220, and ConstructorInvoker, 506-596. *)
Definition invoke_static (e : env) (params : list qty) (args : list argument) : outcome call :=
  andThen (pack_arguments (length params) args) (fun l =>
  andThen (bind_all e params l) (fun bs => Done {| on := None; args_of := bs |})).

(** A member function: its class, whether it is const (function_traits.h), its parameters. *)
Record member := Member { m_class : base; m_const : bool; m_params : list qty }.

(** class_t, metadefine.h:281, 385. *)
Definition class_t (b : base) (is_const : bool) : ty := TBase is_const false b.

(** The object a reference to a class leads to. Of `instance.ref<class_t>()`, include/rtti/metadefine.h:291-323. *)
Definition object_at (c : content) (p : place) : outcome nat :=
  match p with Whole => Done (c_at c) | Base z => Done z | _ => Undefined end.

(** The object a pointer returned by to<> leads to: `->*` on null is undefined. include/rtti/metadefine.h:291-323, 404-435. *)
Definition pointee (c : content) (g : got) : outcome nat :=
  match g with
  | Same => match c_ptr c with Some p => Done p | None => Undefined end
  | Pointer x => Done x
  | Converted w => Done w
  | _ => Undefined
  end.

(** `instance.ref<class_t>()` of a variant that is const or not. include/rtti/metadefine.h:291-323, 404-435. *)
Definition ref_object (e : env) (is_const : bool) (c : content) (T : ty) : outcome nat :=
  andThen (run (access e (if is_const then RefC else RefL) (Some c) T)) (fun d =>
  match d with Some p => object_at c p | None => Exception end).

(** `instance.to<class_ptr_t>()->`. include/rtti/metadefine.h:291-323, 404-435. *)
Definition ptr_object (e : env) (is_const : bool) (c : content) (T : ty) : outcome nat :=
  andThen (run (v_to e is_const (Some c) (TPtr false false T))) (pointee c).

(** MetaType{instance.typeId()}.isClass() and isClassPtr(), of an empty variant false. include/rtti/metadefine.h:291-323. *)
Definition holds_class (v : option content) : bool :=
  match v with Some c => isClass (Some (info_of (type_id c ANone))) | None => false end.
(** include/rtti/metadefine.h:291-323. *)
Definition holds_class_ptr (v : option content) : bool :=
  match v with Some c => isClassPtr (Some (info_of (type_id c ANone))) | None => false end.

(** The two invoke_imp of a member function, metadefine.h:291-323 and 404-435; [None]: it returns an empty variant without
    calling anything. *)
Definition member_object (e : env) (is_const : bool) (v : option content) (m : member) : outcome (option nat) :=
  match v with
  | None => Done None
  | Some c =>
      if holds_class v then
        if is_const && negb (m_const m) then Exception
        else andThen (ref_object e is_const c (class_t (m_class m) (m_const m))) (fun x => Done (Some x))
      else if holds_class_ptr v then
        andThen (ptr_object e is_const c (class_t (m_class m) (m_const m))) (fun x => Done (Some x))
      else Done None
  end.

(** method_invoker for member functions, metadefine.h:222-436. *)
Definition invoke_method (e : env) (is_const : bool) (v : option content) (m : member) (args : list argument) :
    outcome (option call) :=
  andThen (pack_arguments (length (m_params m)) args) (fun l =>
  andThen (member_object e is_const v m) (fun o =>
  match o with
  | None => Done None
  | Some x => andThen (bind_all e (m_params m) l) (fun bs => Done (Some {| on := Some x; args_of := bs |}))
  end)).

(** What include/rtti/metadefine.h:104-504 make of a function. *)
Inductive method := Static (params : list qty) | OfClass (m : member).

(** What the caller writes as instance: a variant, const or an rvalue, or a variant lvalue, or anything else, of which a
    temporary variant is made that only binds to `variant const&` (variant.h:83-87, 696-707). *)
Inductive instance := ByVariant (is_const_or_rvalue : bool) (v : option content) | ByOther (c : content).
(** The instance parameter of include/rtti/detail/metamethod_impl.h. *)
Definition instance_variant (i : instance) : bool * option content :=
  match i with ByVariant k v => (k, v) | ByOther c => (true, Some c) end.

(** The same expression as the first argument of a static function. include/rtti/detail/metamethod_impl.h. *)
Definition instance_argument (i : instance) : argument :=
  match i with
  | ByVariant k v => {| g_rvalue := false; g_value := Some (Inner k v) |}
  | ByOther c => {| g_rvalue := false; g_value := Some (Plain (by_reference c)) |}
  end.

(** MetaMethod::invoke with the instance first, metamethod_impl.h:6-16: at most ten arguments with the instance, else it
    does not compile ([None]). Simplified: rvalue instances of static functions are left out. *)
Definition meta_invoke (e : env) (f : method) (i : instance) (args : list argument) : option (outcome (option call)) :=
  if 10 <? S (length args) then None else
  Some match f with
       | Static params => andThen (invoke_static e params (instance_argument i :: args)) (fun c => Done (Some c))
       | OfClass m => let '(k, v) := instance_variant i in invoke_method e k v m args
       end.

(** variant::invoke, variant_impl.h:501-539, from the point where the method is found. *)
Definition variant_invoke (e : env) (is_const : bool) (v : option content) (f : method) (args : list argument) :=
  if holds_class v || holds_class_ptr v then meta_invoke e f (ByVariant is_const v) args else Some Exception.

(** ** Properties *)

(** The memory: the value at every address. No line of /repo. *)
Definition memory := nat -> nat.
(** An assignment, no line of /repo. *)
Definition write (m : memory) (x w : nat) : memory := fun y => if y =? x then w else m y.

(** A variable at an address (metadefine.h:634-670), a data member of a class at an offset (672-737), each with its type,
    or two member functions (776-832): what the first returns for an object and what the second does to the memory.
    std::is_function_v of a decayed type is false (784, 973): functions that are not members do not compile as accessors. *)
Inductive property :=
| Global (x : nat) (T : ty)
| Data (b : base) (offset : nat) (T : ty)
| Accessors (getter setter : member) (get : memory -> nat -> nat) (set : memory -> nat -> nat -> memory).

(** metadefine.h:640-641, 679-680, 783-784 *)
Definition isStatic (p : property) : bool := match p with Global _ _ => true | _ => false end.

(** metadefine.h:646-647, 685-686, 789-790 *)
Definition readOnly (p : property) : bool :=
  match p with Global _ T => is_const T | Data _ _ T => is_const T | Accessors _ _ _ _ => false end.

(** What get gives: an empty variant, a reference to an address (std::cref, std::ref), or a value.
    include/rtti/metadefine.h:634-832. *)
Inductive view := Nothing | Reference (x : nat) | Value (w : nat).

(** The memory after the call, and how it ends. No line of /repo. *)
Definition failed {A} (m : memory) (o : outcome A) : memory * outcome unit :=
  (m, match o with
      | Done _ => Done tt | Invoke_error => Invoke_error | Exception => Exception | Undefined => Undefined
      | Terminated => Terminated | Stuck => Stuck
      end).

(** set_static, metadefine.h:652-658; assert(false) in 691-692 and, for a member function, 272 in 795-796. [read]: the
    value of what an argument is bound to. *)
Definition set_static (e : env) (read : argument -> bound -> nat) (p : property) (a : argument) (m : memory) :
    memory * outcome unit :=
  match p with
  | Global x T =>
      if is_const T then (m, Invoke_error)
      else match run (arg_value e a (mkQ RNone T)) with
           | Done b => (write m x (read a b), Done tt)
           | o => failed m o
           end
  | _ => (m, Undefined)
  end.

(** get_static, metadefine.h:649-650. *)
Definition get_static (p : property) : outcome view :=
  match p with Global x _ => Done (Reference x) | _ => Undefined end.

(** The object of which set_field writes a field, metadefine.h:710-717, 726-730; [None]: it returns silently. *)
Definition set_object (e : env) (is_const : bool) (v : option content) (b : base) : outcome (option nat) :=
  match v with
  | None => Done None
  | Some c =>
      if holds_class v then
        if is_const then Exception else andThen (ref_object e false c (class_t b false)) (fun x => Done (Some x))
      else if holds_class_ptr v then andThen (ptr_object e is_const c (class_t b false)) (fun x => Done (Some x))
      else Done None
  end.

(** The object of which get_field reads a field, metadefine.h:694-702. *)
Definition get_object (e : env) (v : option content) (b : base) : outcome (option nat) :=
  match v with
  | None => Done None
  | Some c =>
      if holds_class v then andThen (ref_object e true c (class_t b true)) (fun x => Done (Some x))
      else if holds_class_ptr v then andThen (ptr_object e true c (class_t b true)) (fun x => Done (Some x))
      else Done None
  end.

(** set_field, metadefine.h:704-732 and 801-805. In an assignment the right operand comes first. *)
Definition set_field (e : env) (read : argument -> bound -> nat) (p : property) (is_const_variant : bool) (v : option content)
    (a : argument) (m : memory) : memory * outcome unit :=
  match p with
  | Global _ _ => (m, Undefined)
  | Data b off T =>
      if is_const T then (m, Invoke_error)
      else if is_const_variant && holds_class v then (m, Exception)
      else if negb (holds_class v || holds_class_ptr v) then (m, Done tt)
      else match run (arg_value e a (mkQ RNone T)) with
           | Done bd =>
               match set_object e is_const_variant v b with
               | Done (Some x) => (write m (x + off) (read a bd), Done tt)
               | o => failed m o
               end
           | o => failed m o
           end
  | Accessors _ setter _ set =>
      match invoke_method e is_const_variant v setter [a] with
      | Done (Some (Call (Some x) [bd])) => (set m x (read a bd), Done tt)
      | Done (Some _) => (m, Undefined)
      | o => failed m o
      end
  end.

(** get_field, metadefine.h:694-702 and 798-799. *)
Definition get_field (e : env) (p : property) (v : option content) (m : memory) : outcome view :=
  match p with
  | Global _ _ => Undefined
  | Data b off _ =>
      andThen (get_object e v b) (fun o => Done match o with Some x => Reference (x + off) | None => Nothing end)
  | Accessors getter _ get _ =>
      andThen (invoke_method e true v getter []) (fun o =>
      match o with
      | Some (Call (Some x) _) => Done (Value (get m x))
      | Some _ => Undefined
      | None => Done Nothing
      end)
  end.

(** MetaProperty::set, include/rtti/variant.h:808-834; [None]: without an instance. *)
Definition property_set (e : env) (read : argument -> bound -> nat) (p : property) (i : option instance) (a : argument)
    (m : memory) : memory * outcome unit :=
  match i with
  | None => if isStatic p then set_static e read p a m else (m, Invoke_error)
  | Some i' =>
      if isStatic p then (m, Invoke_error)
      else let '(k, v) := instance_variant i' in set_field e read p k v a m
  end.

(** MetaProperty::get, variant.h:788-806. *)
Definition property_get (e : env) (p : property) (i : option instance) (m : memory) : outcome view :=
  match i with
  | None => if isStatic p then get_static p else Invoke_error
  | Some i' => if isStatic p then Invoke_error else get_field e p (snd (instance_variant i')) m
  end.

(** variant::set_property, variant_impl.h:542-560, and variant::get_property, src/variant.cpp:116-133, once the property
    is found (C17, C19). *)
Definition variant_set (e : env) (read : argument -> bound -> nat) (v : option content) (p : property) (a : argument) (m : memory) :=
  if holds_class v || holds_class_ptr v then property_set e read p (Some (ByVariant false v)) a m else (m, Exception).
(** include/rtti/detail/variant_impl.h:501-560. *)
Definition variant_get (e : env) (v : option content) (p : property) (m : memory) :=
  if holds_class v || holds_class_ptr v then property_get e p (Some (ByVariant true v)) m else Exception.
