(** Model of how the library sees a function that is registered as a method or as an accessor of a property: the
    specialisations of function_traits (include/rtti/function_traits.h), the choice of the invoker and whether the invoker
    compiles (include/rtti/metadefine.h:70-76, 104-504, 776-832), and the name under which it is listed
    (include/rtti/signature.h:53-76). Types are those of TypesModel. *)
From Coq Require Import List Bool Arith NArith.
From Verif Require Import TypesModel StringsModel.
Import ListNotations.

(** What follows the parameter list of a member function: const, volatile, & or &&, noexcept.
    include/rtti/function_traits.h:39-165. *)
Record quals := Quals { m_const : bool; m_volatile : bool; m_ref : refk; m_noexcept : bool }.

(** Things that can be called, as types (after std::decay, function_traits.h:172-174).
    [variadic]: a C parameter list ending in `...`. A functor has one operator() or several (then its address cannot be taken). *)
Inductive callable :=
| Free (res : qty) (args : list qty) (nx variadic : bool)
| Member (cls : base) (res : qty) (args : list qty) (q : quals) (variadic : bool)
| Functor (cls : base) (op : option (qty * list qty * quals))
| Wrapped (res : qty) (args : list qty)                       (* std::function<res(args)> *)
| Data (cls : base) (t : ty)                                  (* pointer to a data member *)
| NoCall (t : ty).

(** The members of a specialisation of function_traits_helper (function_traits.h:17-36). [t_uniform]: the parameters of
    uniform_signature. base_signature, arity and arg<i> follow from the others and are left out. *)
Record traits := Traits {
  t_class : option base; t_const : bool; t_volatile : bool; t_lref : bool; t_rref : bool; t_noexcept : bool;
  t_result : qty; t_args : list qty; t_uniform : list qty }.

(** `C cv &` and `C cv &&`. uniform_signature of include/rtti/function_traits.h:39-165. *)
Definition object_lref (cls : base) (c v : bool) : qty := mkQ RL (TBase c v cls).
(** uniform_signature of include/rtti/function_traits.h:39-165. *)
Definition object_rref (cls : base) (c v : bool) : qty := mkQ RR (TBase c v cls).

(** function_traits.h:17-36. *)
Definition sp_free r a : traits := Traits None false false false false false r a a.

(** function_traits.h:39-46: derives from the former. *)
Definition sp_free_noexcept r a : traits :=
  let p := sp_free r a in Traits (t_class p) (t_const p) (t_volatile p) (t_lref p) (t_rref p) true (t_result p) (t_args p) (t_uniform p).

(** A specialisation that derives from [p] and sets class_type, is_const, is_volatile and uniform_signature.
    include/rtti/function_traits.h:39-165. *)
Definition derive_class (p : traits) (cls : base) (c v : bool) (this : qty) : traits :=
  Traits (Some cls) (if c then true else t_const p) (if v then true else t_volatile p) (t_lref p) (t_rref p) (t_noexcept p)
         (t_result p) (t_args p) (this :: t_args p).

(** A specialisation for `&`: derives from the one without and sets is_lrefthis (function_traits.h:67-72, 102-107, 126-131, 151-156). *)
Definition derive_lref (p : traits) : traits :=
  Traits (t_class p) (t_const p) (t_volatile p) true (t_rref p) (t_noexcept p) (t_result p) (t_args p) (t_uniform p).

(** A specialisation for `&&`: sets is_rrefthis and uniform_signature (function_traits.h:74-80, 109-115, 133-139, 158-164). *)
Definition derive_rref (p : traits) (this : qty) : traits :=
  Traits (t_class p) (t_const p) (t_volatile p) (t_lref p) true (t_noexcept p) (t_result p) (t_args p) (this :: t_args p).

(** function_traits.h:49-55, 58-64, 82-89, 92-99, 117-124, 141-149. *)
Definition sp_member cls r a := derive_class (sp_free r a) cls false false (object_lref cls false false).
(** include/rtti/function_traits.h:59-66. *)
Definition sp_member_noexcept cls r a := derive_class (sp_free_noexcept r a) cls false false (object_lref cls false false).
(** include/rtti/function_traits.h:83-91. *)
Definition sp_member_const cls r a := derive_class (sp_free r a) cls true false (object_lref cls true false).
(** include/rtti/function_traits.h:93-101. *)
Definition sp_member_const_noexcept cls r a := derive_class (sp_free_noexcept r a) cls true false (object_lref cls true false).
(** include/rtti/function_traits.h:118-125. *)
Definition sp_member_volatile cls r a := derive_class (sp_free r a) cls false true (object_lref cls false true).
(** include/rtti/function_traits.h:142-150. *)
Definition sp_member_const_volatile cls r a := derive_class (sp_free r a) cls true true (object_lref cls true true).

(** Which specialisation is chosen for a pointer to a member function; [None]: only the primary template matches
    (function_traits.h:13-15), which asks a pointer for operator() and does not compile. *)
Definition member_specialisation (cls : base) r a (q : quals) : option traits :=
  match m_const q, m_volatile q, m_ref q, m_noexcept q with
  | false, false, RNone, false => Some (sp_member cls r a)                                                      (* 49-55 *)
  | false, false, RNone, true => Some (sp_member_noexcept cls r a)                                              (* 58-64 *)
  | false, false, RL, false => Some (derive_lref (sp_member cls r a))                                           (* 67-72 *)
  | false, false, RR, false => Some (derive_rref (sp_member cls r a) (object_rref cls false false))             (* 74-80 *)
  | true, false, RNone, false => Some (sp_member_const cls r a)                                                 (* 82-89 *)
  | true, false, RNone, true => Some (sp_member_const_noexcept cls r a)                                         (* 92-99 *)
  | true, false, RL, false => Some (derive_lref (sp_member_const cls r a))                                      (* 102-107 *)
  | true, false, RR, false => Some (derive_rref (sp_member_const cls r a) (object_rref cls true false))         (* 109-115 *)
  | false, true, RNone, false => Some (sp_member_volatile cls r a)                                              (* 117-124 *)
  | false, true, RL, false => Some (derive_lref (sp_member_volatile cls r a))                                   (* 126-131 *)
  | false, true, RR, false => Some (derive_rref (sp_member_volatile cls r a) (object_rref cls false true))      (* 133-139 *)
  | true, true, RNone, false => Some (sp_member_const_volatile cls r a)                                         (* 141-149 *)
  | true, true, RL, false => Some (derive_lref (sp_member_const_volatile cls r a))                              (* 151-156 *)
  | true, true, RR, false => Some (derive_rref (sp_member_const_volatile cls r a) (object_rref cls true true))  (* 158-164 *)
  | _, _, _, _ => None
  end.

(** function_traits.h:13-174. A functor has the traits of its operator() (13-15), std::function those of the function type it
    was given (166-168), for which there is no specialisation; C variadics match none either. *)
Definition function_traits (f : callable) : option traits :=
  match f with
  | Free r a false false => Some (sp_free r a)
  | Free r a true false => Some (sp_free_noexcept r a)
  | Member cls r a q false => member_specialisation cls r a q
  | Functor cls (Some (r, a, q)) => member_specialisation cls r a q
  | Free _ _ _ true | Member _ _ _ _ true | Functor _ None | Wrapped _ _ | Data _ _ | NoCall _ => None
  end.

(** include/rtti/variant.h:682-684, IMethodInvoker::MaxNumberOfArguments; asserted at metadefine.h:109-110, 166-167, 227-228, 331-332. *)
Definition max_arguments : nat := 10.

(** `(instance.ref<class_t>().*func)(...)` and `(instance.to<class_ptr_t>()->*func)(...)`, metadefine.h:291-323, 404-435: does it
    compile. The object is an lvalue, const if is_const says so; func must be a pointer to a member function. *)
Definition member_call_compiles (f : callable) (object_const : bool) : bool :=
  match f with
  | Member _ _ _ q _ => (m_const q || negb object_const) && (match m_ref q with RR => false | _ => true end)
  | _ => false
  end.

(** `func(...)`, metadefine.h:152-157, 212-219. *)
Definition static_call_compiles (f : callable) : bool := match f with Free _ _ _ _ => true | _ => false end.

(** MethodInvoker<F> with its tag (metadefine.h:70-74, 438-504): all its virtual functions are instantiated. What the
    parameter and result types must allow is in CallModel and ReturnModel. *)
Definition method_compiles (f : callable) : bool :=
  match function_traits f with
  | None => false
  | Some t =>
      (length (t_args t) <=? max_arguments) &&
      match t_class t with
      | None => static_call_compiles f
      | Some _ => member_call_compiles f (t_const t)
      end
  end.

(** What a registered method says about itself: isStatic, returnTypeId, parametersTypeId (metadefine.h:112-117, 146-150, 169-176,
    206-210, 230-235, 285-289, 334-341, 389-393). Types stand for their identifiers. *)
Record reported := Reported { r_static : bool; r_result : qty; r_params : list qty }.
(** include/rtti/metadefine.h:104-130. *)
Definition report (f : callable) : option reported :=
  match function_traits f with
  | None => None
  | Some t => Some (Reported (match t_class t with None => true | Some _ => false end) (t_result t) (t_args t))
  end.

(** include/rtti/signature.h:67-76, metadefine.h:118-119, 178-179, 236-237: the name in the list of methods; [show] is the compiler's text of a type. *)
Definition listed_name (show : qty -> text) (name : text) (f : callable) : option text :=
  option_map (fun t => signature name (map show (t_uniform t))) (function_traits f).

(** ** The methods of a class *)

(** A method as listed: its name and the function. src/metamethod.cpp:22-40. *)
Definition entry := (text * callable)%type.

(** What a look-up in a class goes through: its own methods in the order of registration (src/metacontainer.cpp:88-126), then
    those of the bases in the order they are searched (src/metaclass.cpp:181-207, given here as one list: C17). *)
Record methods := Methods { own : list entry; inherited : list entry }.

(** src/metacontainer.cpp:321-326 and metaclass.cpp:181-207; include/rtti/metacontainer.h:68-70. *)
Definition lookup (m : methods) (query : text) : found entry :=
  match getMethod fst (own m) query with FNone => getMethod fst (inherited m) query | r => r end.
(** include/rtti/metacontainer.h:68-70. *)
Definition lookup_types (show : qty -> text) (m : methods) (name : text) (args : list qty) : found entry :=
  lookup m (signature name (map show args)).

(** src/metamethod.cpp:22-40 (MetaMethod::create) from metadefine.h:944-952 (_method). An exception leaves the class as it was. A program that does not
    compile registers nothing. *)
Definition register (show : qty -> text) (m : methods) (d : text * callable) : methods :=
  let (name, f) := d in
  if method_compiles f then
    match listed_name show name f with
    | None => m
    | Some s => match lookup m s with FNone => Methods (own m ++ [(s, f)]) (inherited m) | _ => m end
    end
  else m.

(** Calls of include/rtti/metadefine.h:944-952 one after the other. *)
Definition register_all (show : qty -> text) (m : methods) (ds : list (text * callable)) : methods :=
  fold_left (register show) ds m.

(** ** Accessors of a property *)

(** std::is_void_v, metadefine.h:819, 823. *)
Definition is_void (q : qty) : bool :=
  match q_ref q, q_ty q with RNone, TBase _ _ b => match b_kind b with KVoid => true | _ => false end | _, _ => false end.

(** std::is_function_v of a type that std::decay has been applied to (metadefine.h:973): never. *)
Definition is_function_v (f : callable) : bool := false.

(** std::is_member_function_pointer_v. As asked in include/rtti/metadefine.h:776-832. *)
Definition is_member_function (f : callable) : bool := match f with Member _ _ _ _ _ => true | _ => false end.

(** PropertyInvokerEx<G, S>: the static_asserts (metadefine.h:808-829) and the calls of the two MethodInvokers (792-805).
    A setter of type void is not possible here, since S is deduced from an argument. *)
Definition accessors_compile (g s : callable) : bool :=
  ((is_function_v g && is_function_v s) || (is_member_function g && is_member_function s)) &&
  match function_traits g, function_traits s with
  | Some tg, Some ts =>
      negb (is_void (t_result tg)) && (length (t_args tg) =? 0) && is_void (t_result ts) &&
      (match t_args ts with [a] => if ty_eq_dec (decay (q_ty (t_result tg))) (decay (q_ty a)) then true else false | _ => false end)
  | _, _ => false
  end && method_compiles g && method_compiles s.
