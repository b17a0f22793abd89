(** Model of the overloads of meta_cast (include/rtti/metaclass.h:91-172): which one a call chooses, the type of its result
    and its value. The choice follows the rules of C++ for these templates: deduction ([temp.deduct.call]), conversions
    ([over.ics.rank]) and which template is more specialised ([temp.func.order]).
    Simplified: no volatile; [To] is given explicitly and is a class, const or not, [From] is deduced. *)
From Coq Require Import List Bool Arith.
From Verif Require Import InheritModel.
Import ListNotations.

(** A class, const or not. The template arguments of include/rtti/metaclass.h:91-172. *)
Record cls := Cls { c_id : nat; c_const : bool }.
(** std::is_same, no line of /repo. *)
Definition cls_eqb (a b : cls) : bool := (c_id a =? c_id b) && Bool.eqb (c_const a) (c_const b).

(** The argument of a call: a pointer (itself const or not) to a class or an object of a class; an lvalue or not.
    include/rtti/metaclass.h:139-172. *)
Inductive form := Pointer (own_const : bool) | Object.
(** include/rtti/metaclass.h:139-172. *)
Record arg := Arg { a_form : form; a_cls : cls; a_lvalue : bool }.

(** The four overloads, metaclass.h:139-144, 146-151, 153-161 (first and second). *)
Inductive overload := PtrTo | PtrToConst | RefTo | RefToConst.
(** include/rtti/metaclass.h:139-161. *)
Definition overloads : list overload := [PtrTo; PtrToConst; RefTo; RefToConst].

(** The parameter is a reference. include/rtti/metaclass.h:153-161. *)
Definition by_ref (o : overload) : bool := match o with RefTo | RefToConst => true | _ => false end.
(** The argument is const as far as a reference sees it. include/rtti/metaclass.h:153-161. *)
Definition top_const (a : arg) : bool := match a_form a with Pointer k => k | Object => c_const (a_cls a) end.

(** metaclass.h:139-172: deduction succeeds and the parameter can be initialised. Pointers are only deduced from pointers, a reference
    that is not to const binds to lvalues and const rvalues. *)
Definition viable (o : overload) (a : arg) : bool :=
  match o with
  | PtrTo | PtrToConst => match a_form a with Pointer _ => true | Object => false end
  | RefTo => a_lvalue a || top_const a
  | RefToConst => true
  end.

(** metaclass.h:139-172: the conversion to the parameter adds const below the pointer. *)
Definition adds_inner (o : overload) (a : arg) : bool := match o with PtrToConst => negb (c_const (a_cls a)) | _ => false end.
(** metaclass.h:139-172: a reference parameter adds const. *)
Definition adds_top (o : overload) (a : arg) : bool := match o with RefToConst => negb (top_const a) | _ => false end.

(** metaclass.h:139-172: the conversion of [o] is better than that of [p]: identity before qualification; of two references
    the one to the less const type. *)
Definition converts_better (o p : overload) (a : arg) : bool :=
  (negb (adds_inner o a) && adds_inner p a) || (by_ref o && by_ref p && negb (adds_top o a) && adds_top p a).

(** metaclass.h:139-172: [o] is more specialised than [p]. References are dropped, then [From*] is a special case of [From] and
    [From const*] of [From*]; of two references that are equally special the one to const is more so. *)
Definition more_special (o p : overload) : bool :=
  match o, p with
  | PtrToConst, PtrToConst => false
  | PtrToConst, _ => true
  | PtrTo, (RefTo | RefToConst) => true
  | RefToConst, RefTo => true
  | _, _ => false
  end.

(** metaclass.h:139-172, [over.match.best]. *)
Definition better (a : arg) (o p : overload) : bool :=
  negb (converts_better p o a) && (converts_better o p a || more_special o p).
(** Equality, no line of /repo. *)
Definition overload_eqb (o p : overload) : bool :=
  match o, p with PtrTo, PtrTo | PtrToConst, PtrToConst | RefTo, RefTo | RefToConst, RefToConst => true | _, _ => false end.
(** The overload called among [os]; [None]: the call does not compile.
    include/rtti/metaclass.h:139-172 under [over.match.best]. *)
Definition pick (os : list overload) (a : arg) : option overload :=
  find (fun o => viable o a && forallb (fun p => negb (viable p a) || overload_eqb o p || better a o p) os) os.
(** include/rtti/metaclass.h:139-172. *)
Definition chosen : arg -> option overload := pick overloads.

(** The type that From stands for in the chosen overload, the class that the parameter points or refers to and the class that the
    result points or refers to (metaclass.h:139-172). *)
Definition constant (u : cls) : cls := Cls (c_id u) true.
(** From of include/rtti/metaclass.h:139-172. *)
Definition deduced (o : overload) (u : cls) : cls := match o with PtrToConst | RefToConst => Cls (c_id u) false | _ => u end.
(** The parameter of include/rtti/metaclass.h:139-172. *)
Definition parameter (o : overload) (u : cls) : cls := match o with PtrToConst | RefToConst => constant u | _ => u end.
(** The result of include/rtti/metaclass.h:139-172. *)
Definition result_class (o : overload) (to : cls) : cls := match o with PtrToConst | RefToConst => constant to | PtrTo | RefTo => to end.

(** A pointer to [k] converts to a pointer to [l]. No line of /repo: C++. *)
Definition converts (k l : cls) : bool := (c_id k =? c_id l) && (negb (c_const k) || c_const l).

(** What a call does: a pointer or a reference to a class, or an exception. include/rtti/metaclass.h:91-172. *)
Inductive outcome := Gives (k : cls) (v : option sub) | Refers (k : cls) (v : sub) | Throws | NoCompile | Undefined | Endless.
(** No line of /repo: an answer of InheritModel.v. *)
Definition given (k : cls) (r : res (option sub)) : outcome := match r with Ok v => Gives k v | UB => Undefined | Fuel => Endless end.

Section Casts.
  Variables (c : cxx) (reg decl has : nat -> bool) (g : graph sub) (fuel : nat).

  (** internal::meta_cast<To, From>(pointer to [u]), include/rtti/metaclass.h:93-136; From is given, so the parameters are
      [From const*] and [From*], and a pointer to const converts to the first only. With class info [To] is looked up without its
      const (metaTypeId decays, MetaClass::find, src/metaclass.cpp:44-48); the form for non-const calls the other, with From deduced
      anew (117). Without class info To and From have to be the same type. *)
  Definition value (to from : cls) (p : option sub) : res (option sub) :=
    if has (c_id from) then meta_cast c reg decl has g fuel (c_id from) (c_id to) p
    else Ok (if cls_eqb to from then p else None).
  (** include/rtti/metaclass.h:91-137. *)
  Definition internal_call (to from u : cls) (p : option sub) : outcome :=
    if c_const u || c_const from then given (constant to) (value to from p)
    else if has (c_id from) then
      match pick [PtrToConst; PtrTo] (Arg (Pointer false) (constant from) false) with
      | Some PtrToConst => given to (value to (deduced PtrToConst (constant from)) p)
      | Some _ => Endless
      | None => NoCompile
      end
    else given to (value to from p).

  (** The pointer forms, metaclass.h:139-151. *)
  Definition pointer_call (o : overload) (to u : cls) (p : option sub) : outcome :=
    match internal_call to (deduced o u) (parameter o u) p with
    | Gives k v => if converts k (result_class o to) then Gives (result_class o to) v else NoCompile
    | r => r
    end.

  (** [meta_cast<To>(a)], metaclass.h:139-172, where [p] is the value of the pointer or the address of the object. The reference forms
      give the address of their parameter to the pointer forms. *)
  Definition call (to : cls) (a : arg) (p : option sub) : outcome :=
    match chosen a with
    | None => NoCompile
    | Some o =>
        if by_ref o then
          let u := parameter o (a_cls a) in
          match chosen (Arg (Pointer false) u false) with
          | None => NoCompile
          | Some o' =>
              if by_ref o' then NoCompile else
              match pointer_call o' to u p with
              | Gives k (Some s) => if converts k (result_class o to) then Refers (result_class o to) s else NoCompile
              | Gives _ None => Throws
              | r => r
              end
          end
        else pointer_call o to (a_cls a) p
    end.
End Casts.
