(** Model of what a variant tells about its content and how it gives access to it: is, ref, rref, cref, data, to,
    canConvert, operator== and std::hash (include/rtti/variant.h:99-324, 354-600, src/variant.cpp:86-114,
    include/rtti/detail/variant_impl.h:46-381, 566-580).

    Types are those of TypesModel.v, the class graph that of InheritModel.v; a class type is the number of its class
    in the graph. Identifiers of types are compared as types (C04, C05: equal identifiers, equal types). *)
From Coq Require Import NArith List Bool Arith.
From Verif Require Import TypesModel InheritModel.
Import ListNotations.

(** [Throw]: an exception. [UB]: undefined behaviour. [Term]: std::terminate. [Loop]: it does not return.
    Of the functions of include/rtti/variant.h:99-324. *)
Inductive out (A : Type) := Got (a : A) | Throw | Undef | Term | Loop.
Arguments Got {A}. Arguments Throw {A}. Arguments Undef {A}. Arguments Term {A}. Arguments Loop {A}.

(** Of the monad, no line of /repo. *)
Definition bind {A B} (m : out A) (f : A -> out B) : out B :=
  match m with Got a => f a | Throw => Throw | Undef => Undef | Term => Term | Loop => Loop end.

(** An answer of InheritModel.v, no line of /repo. *)
Definition of_res {A} (r : res A) : out A := match r with Ok a => Got a | UB => Undef | Fuel => Loop end.

(** ** Contents *)

(** A value of its own (variant_impl.h:52-117, 187-335) or a std::reference_wrapper (119-185). *)
Inductive form := Val | Refw.

(** [c_src]: the type of what was put in (for a wrapper, of what it refers to). [c_at]: the address of the object.
    [c_ptr]: for pointers, the pointer. [c_vals]: the value, for arrays those of the elements. [c_bytes]: the bytes.
    include/rtti/variant.h:19-26, 604-608. *)
Record content := Content { c_form : form; c_src : ty; c_at : nat; c_ptr : option nat; c_vals : list nat; c_bytes : list nat }.

(** std::remove_cv_t, variant_impl.h:113. *)
Definition strip (t : ty) : ty :=
  match t with TBase _ _ b => TBase false false b | TPtr _ _ t' => TPtr false false t' | TArr _ _ => remove_all_cv t end.

(** std::add_const_t. As in include/rtti/variant.h:157-245. *)
Fixpoint add_const (t : ty) : ty :=
  match t with TBase _ v b => TBase true v b | TPtr _ v t' => TPtr true v t' | TArr t' n => TArr (add_const t') n end.

(** The type U of the tables: variant_impl.h:113 and 252 (remove_cv), 324 (arrays: remove_all_cv), 180 (unwrapped). *)
Definition stored (c : content) : ty :=
  match c_form c with Refw => c_src c | Val => match c_src c with TArr _ _ => remove_all_cv (c_src c) | t => strip t end end.

(** include/rtti/variant.h:28-34 *)
Inductive attr := ANone | ALref | ARref | ALrefConst.

(** f_type: variant_impl.h:57-70, 122-135, 192-205, 263-276. *)
Definition type_id (c : content) (a : attr) : qty :=
  match a with
  | ANone => mkQ RNone (stored c)
  | ALref => mkQ RL (stored c)
  | ARref => mkQ RR (stored c)
  | ALrefConst => mkQ RL (add_const (stored c))
  end.

(** ** The world around *)

(** What is registered. [e_declares]: the class has a classInfo() (sfinae.h; variant_impl.h:349). [e_dyn]: what that
    virtual function answers for an object of the class at an address: the dynamic class and the complete object.
    [e_copies]: copying an object of the type succeeds. [e_conv]: the registered converters by decayed types.
    [e_cmp]: the operator== of the type, if it has one. [e_hash]: std::_Hash_impl::hash. *)
Inductive conv := Good (w : nat) | Refused | Raised.
(** What the program registered and its classes: src/metatype.cpp, src/metaclass.cpp. *)
Record env := Env {
  e_graph : graph nat; e_registered : nat -> bool; e_declares : nat -> bool; e_dyn : nat -> nat -> nat * nat;
  e_copies : ty -> bool; e_conv : qty -> qty -> option (content -> conv);
  e_cmp : ty -> option (nat -> nat -> bool); e_hash : list nat -> nat }.

(** The bound of InheritModel.v for the searches of src/metaclass.cpp:123-235. *)
Definition fuel (e : env) : nat := length (e_graph e).

(** std::is_class_v of a decayed type, is_class_ptr_v (misc_traits.h:249-261), or neither: the three tags of
    variant.h:371-377, 450-456, 541-547. *)
Inductive tag := TagNone | TagClass (c : nat) | TagClassPtr (c : nat).
(** include/rtti/variant.h:371-377, 450-456, 541-547. *)
Definition tag_of (q : qty) : tag :=
  match q_ty (full_decay q) with
  | TBase _ _ b => if kind_is KClass b then TagClass (b_id b) else TagNone
  | TPtr _ _ (TBase _ _ b) => if kind_is KClass b then TagClassPtr (b_id b) else TagNone
  | _ => TagNone
  end.

(** class_info_get<T>::info, variant_impl.h:337-381: no class (an array, or neither class nor pointer to class), or a
    class and an address. A null pointer to a class that has classInfo is dereferenced (365-366). *)
Definition class_info (e : env) (c : content) : out (option (nat * option nat)) :=
  if is_array (stored c) then Got None else
  match tag_of (mkQ RNone (stored c)) with
  | TagNone => Got None
  | TagClass k =>
      if e_declares e k then let '(d, x) := e_dyn e k (c_at c) in Got (Some (d, Some x)) else Got (Some (k, Some (c_at c)))
  | TagClassPtr k =>
      if e_declares e k
      then match c_ptr c with Some p => let '(d, x) := e_dyn e k p in Got (Some (d, Some x)) | None => Undef end
      else Got (Some (k, c_ptr c))
  end.

(** cast_imp of metafunc_is, variant.h:397-410. *)
Definition inherits (e : env) (c : content) (target : nat) : out bool :=
  bind (class_info e c) (fun i =>
  match i with
  | None => Got false
  | Some (d, _) =>
      if e_registered e d && e_registered e target then of_res (inheritedFrom (e_graph e) (fuel e) d target) else Got false
  end).

(** cast_imp of metafunc_cast and metafunc_to, variant.h:489-503, 584-598; [None] is nullptr. *)
Definition cast_imp (e : env) (c : content) (target : nat) : out (option nat) :=
  bind (class_info e c) (fun i =>
  match i with
  | None => Got None
  | Some (d, x) =>
      if e_registered e d && e_registered e target then of_res (cast (e_graph e) (fuel e) d target x) else Got None
  end).

(** MetaType::compatible as a condition. src/metatype.cpp:162-220. *)
Definition when_compatible {A} (from to : qty) (yes no : out A) : out A :=
  match compat from to with CTrue => yes | CFalse => no | CTerm => Term end.

(** Equality of decayed identifiers, as in include/rtti/variant.h:354-600. *)
Definition same_decay (a b : qty) : bool := if qty_eq_dec (full_decay a) (full_decay b) then true else false.

(** ** is *)

(** variant.h:354-416, metafunc_is<T>::invoke on a variant that holds [c]. *)
Definition metafunc_is (e : env) (c : content) (from : qty) (T : qty) : out bool :=
  when_compatible from T
    (if same_decay from T then Got true
     else match tag_of T with
          | TagNone => Got false
          | TagClass k => if isClass (Some (info_of from)) then inherits e c k else Got false
          | TagClassPtr k => if isClassPtr (Some (info_of from)) then inherits e c k else Got false
          end)
    (Got false).

(** variant.h:130-142; [None]: an empty variant. *)
Definition v_is (e : env) (const_variant : bool) (v : option content) (T : qty) : out bool :=
  match v with
  | None => Got false
  | Some c => metafunc_is e c (type_id c (if const_variant then ALrefConst else ALref)) T
  end.

(** ** Access *)

(** What an accessor leads to: the content itself; the elements of an array, perhaps fewer; the variant's own pointer
    to the first element; the base sub-object at an address; the variant's own pointer to an object, taken for a
    pointer to a base. include/rtti/variant.h:418-506. *)
Inductive place := Whole | Elements | Hidden | Base (x : nat) | Slot.

(** storage.ptr: the pointer itself for a pointer held by value, the address for a wrapper. include/rtti/variant.h:22-26. *)
Definition storage_ptr (c : content) : option nat := match c_form c with Val => c_ptr c | Refw => Some (c_at c) end.

(** variant.h:418-506, metafunc_cast<T>::invoke. raw_data_ptr of an array is the address of the pointer to it
    (variant_impl.h:278-281, 139-142). *)
Definition metafunc_cast (e : env) (c : content) (from to : qty) : out place :=
  when_compatible from to
    (if same_decay from to
     then Got (if is_array (q_ty to) then Elements else if is_array (stored c) then Hidden else Whole)
     else match tag_of to with
          | TagNone => Throw
          | TagClass k =>
              if isClass (Some (info_of from))
              then bind (cast_imp e c k) (fun r => match r with Some x => Got (Base x) | None => Throw end) else Throw
          | TagClassPtr k =>
              if isClassPtr (Some (info_of from))
              then bind (cast_imp e c k) (fun r =>
                   match r with
                   | Some x => if match storage_ptr c with Some p => x =? p | None => false end then Got Slot else Throw
                   | None => Throw
                   end)
              else Throw
          end)
    Throw.

(** The accessors: ref() & 144-154, ref() const& 156-166, ref() && 168-178, rref() && 180-190, cref() 192-202,
    cref() const 204-214, data() 216-231, data() const 233-248 of variant.h. *)
Inductive accessor := RefL | RefC | RefR | RRef | CRefL | CRefC | DataL | DataC.

(** The overloads of include/rtti/variant.h:157-245 that are const. *)
Definition on_const (a : accessor) : bool := match a with RefC | CRefC | DataC => true | _ => false end.

(** What include/rtti/variant.h:157-245 pass on as type of the source. *)
Definition from_attr (a : accessor) : attr :=
  match a with RefL | CRefL | DataL => ALref | RefC | CRefC | DataC => ALrefConst | RefR => ANone | RRef => ARref end.

(** The type asked for, T without reference, as the accessor passes it on and returns it. include/rtti/variant.h:157-245. *)
Definition seen (a : accessor) (T : ty) : qty :=
  match a with
  | RefL | DataL => mkQ RL T
  | RRef => mkQ RR T
  | RefC | RefR | CRefL | CRefC | DataC => mkQ RL (add_const T)
  end.

(** The accessors on a variant; data() catches every exception and answers nullptr (here [None]).
    include/rtti/variant.h:157-245. *)
Definition access (e : env) (a : accessor) (v : option content) (T : ty) : out (option place) :=
  let r := match v with
           | None => Throw
           | Some c => metafunc_cast e c (type_id c (from_attr a)) (seen a T)
           end in
  match a, r with
  | (DataL | DataC), Throw => Got None
  | _, _ => bind r (fun p => Got (Some p))
  end.

(** ** Conversion *)

(** What to<T>() returns: a copy of the content, of the pointer to the first element of an array, of the base
    sub-object at an address, a pointer to the base sub-object, or the result of a converter. include/rtti/variant.h:508-600. *)
Inductive got := Same | First | Part (x : nat) | Pointer (x : nat) | Converted (w : nat).

(** MetaType::convert, src/metatype.cpp:427-437 with metatype.h:641-703: [false] if there is no converter or it gave up
    (or, for the first kind of functor, threw); the second kind lets exceptions through. *)
Definition convert (e : env) (c : content) (from to : qty) : out (option nat) :=
  match e_conv e (full_decay from) (full_decay to) with
  | None => Got None
  | Some f => match f c with Good w => Got (Some w) | Refused => Got None | Raised => Throw end
  end.

(** `to.copy_construct(...)`, metatype.h:252-263. *)
Definition copied (e : env) (T : ty) (g : got) : out got := if e_copies e T then Got g else Throw.

(** variant.h:508-600, metafunc_to<T>::invoke, and the copy out of the buffer in 250-274 (taken not to throw). *)
Definition metafunc_to (e : env) (c : content) (from : qty) (T : ty) : out got :=
  let to := mkQ RNone T in
  let otherwise := bind (convert e c from to) (fun r => match r with Some w => Got (Converted w) | None => Throw end) in
  when_compatible from to
    (if same_decay from to then copied e T (if is_array (stored c) then First else Same)
     else match tag_of to with
          | TagNone => otherwise
          | TagClass k =>
              if isClass (Some (info_of from))
              then bind (cast_imp e c k) (fun r => match r with Some x => copied e T (Part x) | None => otherwise end)
              else otherwise
          | TagClassPtr k =>
              if isClassPtr (Some (info_of from))
              then bind (cast_imp e c k) (fun r => match r with Some x => copied e T (Pointer x) | None => otherwise end)
              else otherwise
          end)
    otherwise.

(** variant.h:250-274. *)
Definition v_to (e : env) (const_variant : bool) (v : option content) (T : ty) : out got :=
  match v with
  | None => Throw
  | Some c => metafunc_to e c (type_id c (if const_variant then ALrefConst else ALref)) T
  end.

(** variant.h:276-306; of an empty variant the type is not valid, so there is no converter. *)
Definition v_canConvert (e : env) (const_variant : bool) (v : option content) (T : ty) : out bool :=
  bind (v_is e const_variant v (mkQ RNone T)) (fun b =>
  if b then Got true else
  match v with
  | None => Got false
  | Some c =>
      match e_conv e (full_decay (type_id c (if const_variant then ALrefConst else ALref))) (full_decay (mkQ RNone T)) with
      | Some _ => Got true
      | None => Got false
      end
  end).

(** ** Comparison and hash *)

(** std::remove_all_extents_t, as in include/rtti/metatype.h:311-417. *)
Fixpoint element (t : ty) : ty := match t with TArr t' _ => element t' | _ => t end.
(** Length of include/rtti/metatype.h:311-417, over all extents. *)
Fixpoint count (t : ty) : nat := match t with TArr t' n => N.to_nat n * count t' | _ => 1 end.

(** std::equal over the left array's own length, metatype.h:408-411. *)
Fixpoint equal_loop (cmp : nat -> nat -> bool) (n : nat) (a b : list nat) : out bool :=
  match n with
  | 0 => Got true
  | S n' => match a, b with
            | x :: a', y :: b' => if cmp x y then equal_loop cmp n' a' b' else Got false
            | _, _ => Undef
            end
  end.

(** f_compare_eq, variant_impl.h:104-108, 166-170, 242-246, 313-317, with metatype.h:293-308 and 398-415: the type of the
    left content decides how both are read. No operator==: runtime_error. The same address: true. A pointer on the left
    and an array on the right: the elements are read as a pointer. Simplified: a multidimensional array is compared
    through its innermost elements' operator== also where the code asks for one of its rows (400). *)
Definition compare_eq (e : env) (a b : content) : out bool :=
  match e_cmp e (remove_all_cv (element (stored a))) with
  | None => Throw
  | Some cmp =>
      if c_at a =? c_at b then Got true
      else if is_array (stored a) then equal_loop cmp (count (stored a)) (c_vals a) (c_vals b)
      else if is_array (stored b) then Undef
      else match c_vals a, c_vals b with x :: _, y :: _ => Got (cmp x y) | _, _ => Undef end
  end.

(** src/variant.cpp:91-114. *)
Definition v_eq (e : env) (l r : option content) : out bool :=
  match l, r with
  | None, None => Got true
  | Some a, Some b =>
      when_compatible (type_id b ALrefConst) (type_id a ALrefConst)
        (if same_decay (type_id b ALrefConst) (type_id a ALrefConst) then compare_eq e a b else Got false)
        (Got false)
  | _, _ => Got false
  end.

(** variant_impl.h:566-580: the bytes of the object, as many as its type has. *)
Definition v_hash (e : env) (v : option content) : nat := match v with None => 0 | Some c => e_hash e (c_bytes c) end.
