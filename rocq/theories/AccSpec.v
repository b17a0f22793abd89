(** What a user expects of the accessors of a variant, of is, to, == and hash; see AccModel.v for the types of contents
    and of the world. *)
From Coq Require Import NArith List Bool Arith.
From Verif Require Import TypesModel TypesSpec InheritModel InheritSpec AccModel.
Import ListNotations.

(** ** Types *)

(** A copy has the type without the qualifiers of the object itself; those of an array are its elements'. *)
Fixpoint copy_type (t : ty) : ty :=
  match t with TBase _ _ b => TBase false false b | TPtr _ _ u => TPtr false false u | TArr u n => TArr (copy_type u) n end.

(** The type of the object in the variant, or of the one referred to. *)
Definition held (c : content) : ty := match c_form c with Val => copy_type (c_src c) | Refw => c_src c end.

Fixpoint dims (t : ty) : nat := match t with TArr u _ => S (dims u) | _ => 0 end.

(** Level [j] may not be written: it is const itself, or the variant is const and so its content. *)
Definition protected (const_variant : bool) (t : ty) (j : nat) : bool := const_at t j || (const_variant && (j <=? dims t)).

Fixpoint constify (t : ty) : ty :=
  match t with TBase _ v b => TBase true v b | TPtr _ v u => TPtr true v u | TArr u n => TArr (constify u) n end.

(** What the accessors return: ref() & and data() a T, rref() && a T&&, the others a T const. *)
Definition returned (a : accessor) (T : ty) : qty :=
  match a with RefL | DataL => mkQ RL T | RRef => mkQ RR T | _ => mkQ RL (constify T) end.

(** The content as an expression: an lvalue of the variant, const if the variant is; of an rvalue an rvalue. *)
Definition expression (a : accessor) (t : ty) : qty :=
  match a with
  | RefL | CRefL | DataL => mkQ RL t
  | RefC | CRefC | DataC => mkQ RL (constify t)
  | RefR => mkQ RNone t
  | RRef => mkQ RR t
  end.

(** The types the statements are about: without volatile, arrays only of non-pointers, fewer than sixteen pointers.
    (C01_volatile_refuted and its neighbours in TypesProps.v are about the others.) There are no arrays of functions. *)
Definition usable (t : ty) : Prop :=
  regular (mkQ RNone t) /\
  match t with TArr (TBase _ _ b) _ => b_kind b <> KFunction | _ => True end.

(** ** Objects *)

Definition class_type (t : ty) (k : nat) : Prop := exists c v b, t = TBase c v b /\ b_kind b = KClass /\ b_id b = k.
Definition pointer_type (t : ty) (k : nat) : Prop := exists c v u, t = TPtr c v u /\ class_type u k.

(** An object of static class [k] at [x] is or belongs to a complete object of class [d] at [y], as far as the library
    can know: it is told by classInfo(), without it takes the static class. *)
Inductive known (e : env) (k x : nat) : nat -> nat -> Prop :=
| KnownStatic : e_declares e k = false -> known e k x k x
| KnownDynamic : e_declares e k = true -> known e k x (fst (e_dyn e k x)) (snd (e_dyn e k x)).

(** The object of the content: the content, or what it points to. *)
Inductive object_of (e : env) (c : content) : nat -> nat -> Prop :=
| ObjClass k d y : class_type (held c) k -> known e k (c_at c) d y -> object_of e c d y
| ObjPointer k p d y : pointer_type (held c) k -> c_ptr c = Some p -> known e k p d y -> object_of e c d y.

(** [z] is the address of the base sub-object of class [k], by the first chain of declared bases (C15). *)
Definition base_at (e : env) (c : content) (k z : nat) : Prop :=
  exists d y fs, object_of e c d y /\ e_registered e d = true /\ e_registered e k = true /\
    first_chain (e_graph e) d k fs /\ along fs y = z.

Definition wf_env (e : env) : Prop :=
  closed (e_graph e) /\ acyclic (e_graph e) /\ forall k, e_registered e k = true -> k < length (e_graph e).

(** ** C23 *)

(** What an accessor that succeeds may lead to. *)
Inductive allowed (e : env) (a : accessor) (c : content) (T : ty) : place -> Prop :=
| AllowWhole : binds (expression a (held c)) (returned a T) -> allowed e a c T Whole
| AllowElements t n t' m : held c = TArr t n -> T = TArr t' m -> similar t t' ->
    (m * size_of t' <= n * size_of t)%N -> allowed e a c T Elements
| AllowHidden t n c' v' t' : held c = TArr t n -> T = TPtr c' v' t' -> similar t t' ->
    const_at (q_ty (returned a T)) 0 = true -> allowed e a c T Hidden
| AllowBase i k z : class_type (held c) i -> class_type T k -> base_at e c k z -> allowed e a c T (Base z)
| AllowSlot i k z : pointer_type (held c) i -> pointer_type T k -> base_at e c k z ->
    (c_form c = Val -> c_ptr c = Some z) -> allowed e a c T Slot.

(** ** C24 *)

(** The value to<T>() is to return. *)
Inductive denotes (e : env) (c : content) (T : ty) : got -> Prop :=
| DenSame : similar (held c) T -> denotes e c T Same
| DenFirst t n c' v' t' : held c = TArr t n -> T = TPtr c' v' t' -> similar t t' -> denotes e c T First
| DenPart i k z : class_type (held c) i -> class_type T k -> base_at e c k z -> denotes e c T (Part z)
| DenPointer i k z : pointer_type (held c) i -> pointer_type T k -> base_at e c k z -> denotes e c T (Pointer z).

Definition not_null (c : content) : Prop := (exists k, pointer_type (held c) k) -> c_ptr c <> None.

(** ** C25, C26 *)

Fixpoint scalar (t : ty) : ty := match t with TArr u _ => scalar u | _ => remove_all_cv t end.
Fixpoint extent (t : ty) : nat := match t with TArr u n => N.to_nat n * extent u | _ => 1 end.

Fixpoint pointwise (cmp : nat -> nat -> bool) (a b : list nat) : bool :=
  match a, b with
  | [], [] => true
  | x :: a', y :: b' => cmp x y && pointwise cmp a' b'
  | _, _ => false
  end.

Definition equivalence (cmp : nat -> nat -> bool) : Prop :=
  (forall x, cmp x x = true) /\ (forall x y, cmp x y = cmp y x) /\
  (forall x y z, cmp x y = true -> cmp y z = true -> cmp x z = true).

(** A content with a value of its type, comparable by an equivalence. *)
Definition comparable (e : env) (c : content) : Prop :=
  length (c_vals c) = extent (held c) /\ pointer_depth (held c) < 16 /\ arrays_of_plain (c_src c) = true /\
  exists cmp, e_cmp e (scalar (held c)) = Some cmp /\ equivalence cmp.

(** Types that only differ in qualifiers below the top or in the extents of arrays are not mixed. *)
Definition unmixed (a b : content) : Prop :=
  full_decay (mkQ RNone (held a)) = full_decay (mkQ RNone (held b)) -> constify (held a) = constify (held b).

(** One address, one type: one object. *)
Definition consistent (a b : content) : Prop :=
  c_at a = c_at b -> constify (held a) = constify (held b) -> c_vals a = c_vals b /\ c_bytes a = c_bytes b.

Definition lift (P : content -> content -> Prop) (a b : option content) : Prop :=
  match a, b with Some x, Some y => P x y | _, _ => True end.

Definition sane (e : env) (v : option content) : Prop := match v with Some c => comparable e c | None => True end.

(** Equal values have equal bytes. *)
Definition canonical (e : env) (a b : content) : Prop :=
  constify (held a) = constify (held b) -> forall cmp, e_cmp e (scalar (held a)) = Some cmp ->
  pointwise cmp (c_vals a) (c_vals b) = true -> c_bytes a = c_bytes b.
