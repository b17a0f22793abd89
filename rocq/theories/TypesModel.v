(** Model of the C++ type grammar, of the traits that describe a type to the
    library, and of [MetaType::compatible]. *)
From Coq Require Import NArith List Bool Arith.
Import ListNotations.
Local Open Scope bool_scope.

(** ** The type grammar *)

(** Kinds told apart by include/rtti/metatype.h:464,468-474. *)
Inductive base_kind :=
| KVoid | KIntegral | KFloat | KEnum | KFunction | KUnion | KClass | KMemberPointer | KOther.

(** A non-pointer, non-array, unqualified type. Simplification: the eleven trait bits of
    include/rtti/metatype.h:475-485 are whatever the compiler says, kept in [b_traits]. *)
Record base := { b_kind : base_kind; b_id : nat; b_size : N; b_traits : N }.

(** C++ types without references; [c] and [v] are const and volatile. The qualifiers of an array
    are those of its elements ([basic.type.qualifier]). Arrays of unknown bound are not modelled.
    No line of /repo: the T of include/rtti/metatype.h:455-530. *)
Inductive ty :=
| TBase (c v : bool) (b : base)
| TPtr (c v : bool) (t : ty)
| TArr (t : ty) (n : N).

(** No line of /repo. *)
Inductive refk := RNone | RL | RR.

(** A type as it may be passed to [metaTypeId<T>()]. include/rtti/metatype.h:489-530. *)
Record qty := mkQ { q_ref : refk; q_ty : ty }.

(** Equality, no line of /repo. *)
Definition base_kind_eq_dec (a b : base_kind) : {a = b} + {a <> b}.
Proof. decide equality. Defined.
(** Equality, no line of /repo. *)
Definition base_eq_dec (a b : base) : {a = b} + {a <> b}.
Proof. decide equality; auto using N.eq_dec, Nat.eq_dec, base_kind_eq_dec. Defined.
(** std::is_same, no line of /repo. *)
Definition ty_eq_dec (a b : ty) : {a = b} + {a <> b}.
Proof. decide equality; auto using N.eq_dec, bool_dec, base_eq_dec. Defined.
(** Equality, no line of /repo. *)
Definition refk_eq_dec (a b : refk) : {a = b} + {a <> b}.
Proof. decide equality. Defined.
(** std::is_same, no line of /repo. *)
Definition qty_eq_dec (a b : qty) : {a = b} + {a <> b}.
Proof. decide equality; auto using ty_eq_dec, refk_eq_dec. Defined.

(** ** Traits *)

(** std::is_const_v, as used in misc_traits.h:185 and metatype.h:462. *)
Fixpoint is_const (t : ty) : bool :=
  match t with TBase c _ _ => c | TPtr c _ _ => c | TArr t _ => is_const t end.

(** std::is_pointer_v, misc_traits.h:63,186. *)
Definition is_pointer (t : ty) : bool := match t with TPtr _ _ _ => true | _ => false end.

(** std::is_array_v, metatype.h:467. *)
Definition is_array (t : ty) : bool := match t with TArr _ _ => true | _ => false end.

(** std::remove_pointer_t, metatype.h:459. *)
Definition remove_pointer (t : ty) : ty := match t with TPtr _ _ t' => t' | _ => t end.

(** include/rtti/misc_traits.h:63-77, [pointer_arity]. *)
Fixpoint pointer_arity (t : ty) : nat :=
  match t with TPtr _ _ t' => S (pointer_arity t') | _ => 0 end.

(** include/rtti/misc_traits.h:189-210, [const_bitset_helper]. *)
Fixpoint const_bitset_helper (t : ty) (i : nat) : N :=
  match t with
  | TPtr c _ t' => (if c then 2 ^ N.of_nat i else 0) + const_bitset_helper t' (i - 1)
  | _ => if is_const t then 2 ^ N.of_nat i else 0
  end.

(** include/rtti/misc_traits.h:214-215, [const_bitset]. *)
Definition const_bitset (t : ty) : N := const_bitset_helper t (pointer_arity t).

(** [1 << I] at misc_traits.h:199,209 is computed in int: an instantiation with more than 30
    pointers does not compile. *)
Definition instantiable (q : qty) : bool := pointer_arity (q_ty q) <=? 30.

(** include/rtti/misc_traits.h:155-177, [base_type]. *)
Fixpoint base_type (t : ty) : base :=
  match t with TBase _ _ b => b | TPtr _ _ t' => base_type t' | TArr t' _ => base_type t' end.

(** sizeof, through include/rtti/misc_traits.h:34-46 [size_of]; a reference has the size of what it
    refers to; pointers have 8 bytes. *)
Fixpoint size_of (t : ty) : N :=
  match t with TBase _ _ b => b_size b | TPtr _ _ _ => 8 | TArr t' n => n * size_of t' end.

(** include/rtti/misc_traits.h:111-146, [remove_all_cv] (below references). *)
Fixpoint remove_all_cv (t : ty) : ty :=
  match t with
  | TBase _ _ b => TBase false false b
  | TPtr _ _ t' => TPtr false false (remove_all_cv t')
  | TArr t' n => TArr (remove_all_cv t') n
  end.

(** std::decay_t of the referred-to type, misc_traits.h:151. *)
Definition decay (t : ty) : ty :=
  match t with
  | TArr t' _ => TPtr false false t'
  | TBase _ _ b =>
      match b_kind b with
      | KFunction => TPtr false false t
      | _ => TBase false false b
      end
  | TPtr _ _ t' => TPtr false false t'
  end.

(** include/rtti/misc_traits.h:150-151, [full_decay_t]. *)
Definition full_decay (q : qty) : qty := mkQ RNone (remove_all_cv (decay (q_ty q))).

(** include/rtti/metatype.h:39-69, the bit positions of [TypeFlags]. *)
Definition bConst := 0%N.            Definition bPointer := 1%N.
(** include/rtti/metatype.h:44-45. *)
Definition bMemberPointer := 2%N.    Definition bLref := 3%N.
(** include/rtti/metatype.h:46-47. *)
Definition bRref := 4%N.             Definition bArray := 5%N.
(** include/rtti/metatype.h:48-50. *)
Definition bVoid := 6%N.             Definition bIntegral := 7%N.
(** include/rtti/metatype.h:50-52. *)
Definition bFloatPoint := 8%N.       Definition bEnum := 9%N.
(** include/rtti/metatype.h:52-54. *)
Definition bFunction := 10%N.        Definition bUnion := 11%N.
(** include/rtti/metatype.h:55. *)
Definition bClass := 12%N.

(** std::is_integral_v, std::is_class_v, ... as asked in include/rtti/metatype.h:468-474. *)
Definition kind_is (k : base_kind) (b : base) : bool :=
  if base_kind_eq_dec (b_kind b) k then true else false.

(** The conditional expressions of include/rtti/metatype.h:461-485. *)
Definition flag_if (c : bool) (bit : N) : N := if c then 2 ^ bit else 0.

(** The bits 13 to 23, metatype.h:475-485. Simplified: EQ_Comparable (485) is asked of the type without its reference, here of
    the base type; nothing in the library reads that flag. *)
Definition trait_mask : N := N.ones 24 - N.ones 13.

(** include/rtti/metatype.h:455-487, [type_flags<T>::value]. *)
Definition type_flags (q : qty) : N :=
  let no_ref := q_ty q in
  let b := base_type no_ref in
  fold_right N.lor 0%N
   [ flag_if (is_const no_ref) bConst
   ; flag_if (is_pointer no_ref) bPointer
   ; flag_if (match no_ref with TBase _ _ b' => kind_is KMemberPointer b' | _ => false end) bMemberPointer
   ; flag_if (match q_ref q with RL => true | _ => false end) bLref
   ; flag_if (match q_ref q with RR => true | _ => false end) bRref
   ; flag_if (is_array (remove_pointer no_ref)) bArray
   ; flag_if (kind_is KVoid b) bVoid
   ; flag_if (kind_is KIntegral b) bIntegral
   ; flag_if (kind_is KFloat b) bFloatPoint
   ; flag_if (kind_is KEnum b) bEnum
   ; flag_if (kind_is KFunction b) bFunction
   ; flag_if (kind_is KUnion b) bUnion
   ; flag_if (kind_is KClass b) bClass
   ; N.land (b_traits b) trait_mask ].

(** src/private/metatype_p.h:12-37, [TypeInfo], without name, decay and manager
    (see RegistryModel.v). *)
Record tinfo := { ti_size : N; ti_arity : N; ti_mask : N; ti_flags : N }.

(** include/rtti/metatype.h:496-512, the constructor of [meta_type<T>]: arity and mask are
    narrowed to 16 bits (lines 506-507). *)
Definition info_of (q : qty) : tinfo :=
  {| ti_size := size_of (q_ty q);
     ti_arity := N.of_nat (pointer_arity (q_ty q)) mod 65536;
     ti_mask := const_bitset (q_ty q) mod 65536;
     ti_flags := type_flags q |}.

(** ** MetaType and its predicates *)

(** A [MetaType]: null or a description. m_typeInfo of include/rtti/metatype.h:162. *)
Definition metatype := option tinfo.

(** src/metatype.cpp:150-154. *)
Definition typeFlags (m : metatype) : N :=
  match m with Some i => ti_flags i | None => 2 ^ bVoid end.

(** src/metatype.cpp:156-160. *)
Definition pointerArity (m : metatype) : N :=
  match m with Some i => ti_arity i | None => 0 end.

(** src/metatype.cpp:144-148. *)
Definition typeSize (m : metatype) : N :=
  match m with Some i => ti_size i | None => 0 end.

(** [(flags & bit) == bit], include/rtti/metatype.h:547 and following. *)
Definition has_flag (f bit : N) : bool := (N.land f (2 ^ bit) =? 2 ^ bit)%N.

(** [(flags & bit) == None], include/rtti/metatype.h:569,604. *)
Definition lacks_flag (f bit : N) : bool := (N.land f (2 ^ bit) =? 0)%N.

Definition isConst (m : metatype) := has_flag (typeFlags m) bConst.            (* metatype.h:545-548 *)
Definition isLref (m : metatype) := has_flag (typeFlags m) bLref.              (* metatype.h:550-553 *)
Definition isRref (m : metatype) := has_flag (typeFlags m) bRref.              (* metatype.h:555-558 *)
Definition isReference (m : metatype) := isLref m || isRref m.                 (* metatype.h:560-563 *)
Definition isClass (m : metatype) :=                                           (* metatype.h:565-570 *)
  has_flag (typeFlags m) bClass && lacks_flag (typeFlags m) bPointer.
Definition isPointer (m : metatype) := has_flag (typeFlags m) bPointer.        (* metatype.h:572-575 *)
Definition isVoidPtr (m : metatype) :=                                         (* metatype.h:577-582 *)
  has_flag (typeFlags m) bVoid && has_flag (typeFlags m) bPointer.
Definition isClassPtr (m : metatype) :=                                        (* metatype.h:584-590 *)
  (pointerArity m =? 1)%N && has_flag (typeFlags m) bClass && has_flag (typeFlags m) bPointer.
Definition isFunctionPtr (m : metatype) :=                                     (* metatype.h:592-598 *)
  (pointerArity m =? 1)%N && has_flag (typeFlags m) bFunction && has_flag (typeFlags m) bPointer.
Definition isArray (m : metatype) :=                                           (* metatype.h:600-605 *)
  has_flag (typeFlags m) bArray && lacks_flag (typeFlags m) bPointer.

(** ** MetaType::compatible *)

(** [CTerm]: std::bitset<16>::test/set throws std::out_of_range inside the noexcept function,
    which calls std::terminate. src/metatype.cpp:162-220. *)
Inductive cres := CTrue | CFalse | CTerm.

(** src/metatype.cpp:213-215, the loop over j. *)
Fixpoint inner_loop (to : N) (js : list nat) : cres :=
  match js with
  | [] => CTrue
  | j :: js' =>
      if 16 <=? j then CTerm
      else if N.testbit to (N.of_nat j) then inner_loop to js' else CFalse
  end.

(** src/metatype.cpp:203-218, the loop over i; [is] lists the remaining values of i. *)
Fixpoint outer_loop (from to : N) (arity1 : nat) (is : list nat) : cres :=
  match is with
  | [] => CTrue
  | i :: is' =>
      if 16 <=? i then CTerm else
      let f := N.testbit from (N.of_nat i) in
      let t := N.testbit to (N.of_nat i) in
      if f && negb t then CFalse
      else if negb f && t then inner_loop to (seq (S i) (arity1 - i))
      else outer_loop from to arity1 is'
  end.

(** src/metatype.cpp:193-219, from the construction of the bit sets on. *)
Definition compare_masks (fi ti : tinfo) (arity1 : nat) (set_top : bool) : cres :=
  let from0 := ti_mask fi in
  let to := ti_mask ti in
  if set_top && (16 <=? arity1) then CTerm else
  let from := if set_top then N.setbit from0 (N.of_nat arity1) else from0 in
  if (from =? to)%N then CTrue
  else outer_loop from to arity1 (seq 0 (S arity1)).

(** src/metatype.cpp:162-220. *)
Definition compatible (fromType toType : metatype) : cres :=
  match fromType, toType with
  | Some fi, Some ti =>
      if negb (isLref fromType) && isLref toType && negb (isConst toType) then CFalse else
      if isLref fromType && isRref toType then CFalse else
      if isArray fromType && isArray toType && (typeSize fromType <? typeSize toType)%N then CFalse else
      let arity0 := N.to_nat (ti_arity fi) in
      let arity1 := if isArray fromType && isPointer toType then S arity0 else arity0 in
      if negb (arity1 =? N.to_nat (ti_arity ti)) then CFalse else
      let set_top := isArray fromType && negb (isArray toType) && isReference toType in
      if isReference toType then compare_masks fi ti arity1 set_top
      else match arity1 with
           | 0 => CTrue
           | S a => compare_masks fi ti a set_top
           end
  | _, _ => CFalse
  end.

(** [compatible] on two types named in C++. src/metatype.cpp:162-220. *)
Definition compat (from to : qty) : cres := compatible (Some (info_of from)) (Some (info_of to)).
