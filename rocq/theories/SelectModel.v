(** Model of what registerConverter makes of the function object it is given (include/rtti/metatype.h:608-857) and of the
    converters that come with converting constructors (include/rtti/metadefine.h:934-942, 1042-1049,
    include/rtti/misc_traits.h:218-230): which of the two kinds of converter is chosen, whether the program compiles, and
    what a conversion then answers. RegistryModel.v and the models of variants take the kind of a converter as given.
    Converters that are member functions are left out: include/rtti/metatype.h:727,760 do not compile for any. *)
From Coq Require Import NArith List Bool Arith.
From Verif Require Import TypesModel.
Import ListNotations.
Local Open Scope bool_scope.

(** ** What the compiler decides *)

(** An expression is written as the type of what it denotes, with RL for an lvalue, RR for an xvalue and RNone for a
    prvalue. [conv a t] says that [a] converts to a new [t] implicitly, [expl a t] that it does so explicitly only, both
    for types that differ in more than qualifiers (a const [t] is made like another). [copies] and [moves] are std::is_copy_constructible and
    std::is_move_constructible. Simplification: references to base classes are not told from conversions.
    No line of /repo: C++. *)
Record env := { conv : qty -> ty -> bool; expl : qty -> ty -> bool; copies : base -> bool; moves : base -> bool }.

(** A function object with one call operator that is no template, include/rtti/metatype.h:657-688: its parameters, how
    many of them have no default, its result and whether the operator is const. A function is one with a const operator. *)
Record functor := { o_params : list qty; o_required : nat; o_result : qty; o_const : bool }.

(** The qualifiers of one level after the other, the type itself first; those of an array are its elements'
    ([conv.qual]/1). Used by the rules for include/rtti/metatype.h:663,697. *)
Fixpoint levels (t : ty) : list (bool * bool) :=
  match t with
  | TBase c v _ => [(c, v)]
  | TPtr c v t' => (c, v) :: levels t'
  | TArr t' _ => match levels t' with [] => [] | l :: r => l :: l :: r end
  end.

(** Equal but for qualifiers, include/rtti/metatype.h:663,697 ([conv.qual]/2). *)
Definition same (t u : ty) : bool := if ty_eq_dec (remove_all_cv t) (remove_all_cv u) then true else false.

(** Qualification conversion, include/rtti/metatype.h:663,697 ([conv.qual]/3); [above] says that every level above is
    const in the target. *)
Fixpoint qualifies (above : bool) (l m : list (bool * bool)) : bool :=
  match l, m with
  | (c, v) :: l', (c', v') :: m' =>
      implb c c' && implb v v' && (above || (eqb c c' && eqb v v')) && qualifies (above && c') l' m'
  | _, _ => true
  end.

(** A new [t] is made of an expression of the same type, include/rtti/metatype.h:663,697. *)
Definition makes (e : env) (a : qty) (t : ty) : bool :=
  match t with
  | TBase _ _ b =>
      match q_ref a with RL => copies e b | _ => if is_const (q_ty a) then copies e b else moves e b end
  | TPtr _ _ _ => true
  | TArr _ _ => false
  end.

(** A parameter [p] takes an argument [a], include/rtti/metatype.h:663,697,782 ([dcl.init.ref]). *)
Definition takes (e : env) (a p : qty) : bool :=
  if same (q_ty a) (q_ty p) then
    match q_ref p with
    | RNone => qualifies true (tl (levels (q_ty a))) (tl (levels (q_ty p))) && makes e a (q_ty p)
    | RL => (match q_ref a with RL => true | _ => is_const (q_ty p) end)
            && qualifies true (levels (q_ty a)) (levels (q_ty p))
    | RR => (match q_ref a with RL => false | _ => true end) && qualifies true (levels (q_ty a)) (levels (q_ty p))
    end
  else
    match q_ref p with RL => is_const (q_ty p) | _ => true end && conv e a (q_ty p).

(** The arguments are taken one after the other; parameters may be left over. include/rtti/metatype.h:663,697. *)
Fixpoint taken (e : env) (args params : list qty) : bool :=
  match args, params with
  | [], _ => true
  | a :: args', p :: params' => takes e a p && taken e args' params'
  | _ :: _, [] => false
  end.

(** A call of the object, const or not, and what it results in; include/rtti/metatype.h:663,697,782. *)
Definition call (e : env) (fn : functor) (cst : bool) (args : list qty) : option qty :=
  if implb cst (o_const fn) && (o_required fn <=? length args) && taken e args (o_params fn)
  then Some (o_result fn) else None.

(** std::is_invocable_r at include/rtti/metatype.h:782 and [return value] at line 616: an expression converts to a [t]
    implicitly. A prvalue becomes the object itself. *)
Definition implicit (e : env) (a : qty) (t : ty) : bool :=
  if same (q_ty a) t then
    qualifies true (tl (levels (q_ty a))) (tl (levels t)) && (match q_ref a with RNone => true | _ => makes e a t end)
  else conv e a t.

(** [new (out) To(expression)], include/rtti/metatype.h:663,697. *)
Definition direct (e : env) (a : qty) (t : ty) : bool := implicit e a t || (negb (same (q_ty a) t) && expl e a t).

(** ** Which converter is made *)

(** ConvertFunctor, include/rtti/metatype.h:643-679, and ConvertFunctorOk, 681-708. *)
Inductive kind := Plain | Reporting.

(** The two outcomes of compiling a registration, include/rtti/metatype.h:783-799. *)
Inductive outcome := Registered (k : kind) | Ill_formed.

(** bool, the second argument at include/rtti/metatype.h:697,782. *)
Definition bool_base : base := {| b_kind := KIntegral; b_id := 0; b_size := 1; b_traits := 0 |}.
(** `bool&`, include/rtti/metatype.h:697. *)
Definition flag : qty := mkQ RL (TBase false false bool_base).

(** There are no objects of type void or of function type to convert, include/rtti/metatype.h:662-663. *)
Definition object_type (t : ty) : bool :=
  match t with TBase _ _ b => match b_kind b with KVoid | KFunction => false | _ => true end | _ => true end.

(** [From const], include/rtti/metatype.h:665,694. *)
Fixpoint constant (t : ty) : ty :=
  match t with TBase _ v b => TBase true v b | TPtr _ v t' => TPtr true v t' | TArr t' n => TArr (constant t') n end.

(** [*from], include/rtti/metatype.h:663,697. *)
Definition source (F : ty) : qty := mkQ RL (constant F).

(** ConvertFunctor::convert compiles, include/rtti/metatype.h:660-673: the member is const. *)
Definition plain_compiles (e : env) (fn : functor) (F T : ty) : bool :=
  match call e fn true [source F] with Some r => direct e r T | None => false end.

(** ConvertFunctorOk::convert compiles, include/rtti/metatype.h:691-699. *)
Definition reporting_compiles (e : env) (fn : functor) (F T : ty) : bool :=
  match call e fn true [source F; flag] with Some r => direct e r T | None => false end.

(** std::is_invocable_r_v<To, Func, From, bool&>, include/rtti/metatype.h:782; [cst] says that [Func] is a reference to a
    const object. *)
Definition is_functorOk (e : env) (fn : functor) (cst : bool) (F T : ty) : bool :=
  match call e fn cst [mkQ RR F; flag] with Some r => implicit e r T | None => false end.

(** registerConverter_imp, include/rtti/metatype.h:783-800. *)
Definition choose (e : env) (fn : functor) (cst : bool) (F T : ty) : outcome :=
  if negb (object_type F && object_type T) then Ill_formed
  else if is_functorOk e fn cst F T
       then (if reporting_compiles e fn F T then Registered Reporting else Ill_formed)
       else (if plain_compiles e fn F T then Registered Plain else Ill_formed).

(** registerConverter<From, To>(func), include/rtti/metatype.h:802-808. *)
Definition register_functor (e : env) (fn : functor) (cst : bool) (from to : qty) : outcome :=
  choose e fn cst (q_ty (full_decay from)) (q_ty (full_decay to)).

(** registerConverter of a pointer to a function from From to To, include/rtti/metatype.h:810-815. *)
Definition register_function (e : env) (from to : qty) : outcome :=
  register_functor e {| o_params := [from]; o_required := 1; o_result := to; o_const := true |} false from to.

(** [return value] of default_convert, include/rtti/metatype.h:613-617: a parameter taken by value is moved from, a
    reference is an lvalue. *)
Definition returns (e : env) (from to : qty) : bool :=
  implicit e (mkQ (match q_ref from with RNone => RR | _ => RL end) (q_ty from)) (q_ty to).

(** registerConverter<From, To>() with default_convert, include/rtti/metatype.h:613-617, 817-821. *)
Definition register_default (e : env) (from to : qty) : outcome :=
  if returns e from to then register_function e from to else Ill_formed.

(** is_converting_constructor_t<T, Arg>, include/rtti/misc_traits.h:222-230. *)
Definition is_converting (e : env) (T : base) (arg : qty) : bool :=
  negb (if qty_eq_dec (mkQ RNone (TBase false false T)) (full_decay arg) then true else false)
  && implicit e (mkQ (match q_ref arg with RL => RL | _ => RR end) (q_ty arg)) (TBase false false T).

(** [_constructor<Arg>()] of a class, include/rtti/metadefine.h:934-942, 1042-1049: None if no converter is registered. *)
Definition define_constructor (e : env) (T : base) (arg : qty) : option outcome :=
  if is_converting e T arg then Some (register_default e arg (mkQ RNone (TBase false false T))) else None.

(** ** What a conversion answers *)

(** One call of the function object: it throws or gives a value, and may assign to its second parameter.
    include/rtti/metatype.h:641-703. *)
Record act := Act { a_throws : bool; a_value : nat; a_assigns : option bool }.

(** The second parameter is the flag itself, include/rtti/metatype.h:695-697. *)
Definition is_flag (p : qty) : bool :=
  match q_ref p with RL => same (q_ty p) (q_ty flag) && negb (is_const (q_ty p)) | _ => false end.

(** What convert says and leaves in [out]: an object and true; false, with an object or none; or an exception.
    include/rtti/metatype.h:660-673, 691-699. *)
Inductive answer := Converted (v : nat) | Refused (made : option nat) | Escapes.

(** include/rtti/metatype.h:660-673, 691-699; [does] is the function object's body, given the content and the second
    argument, None if it is left to its default. *)
Definition convert (k : kind) (fn : functor) (does : nat -> option bool -> act) (v : nat) : answer :=
  match k with
  | Plain => let a := does v None in if a_throws a then Refused None else Converted (a_value a)
  | Reporting =>
      let a := does v (Some false) in
      if a_throws a then Escapes
      else let result := match o_params fn with
                         | _ :: p :: _ => if is_flag p then match a_assigns a with Some b => b | None => false end else false
                         | _ => false
                         end in
           if result then Converted (a_value a) else Refused (Some (a_value a))
  end.
