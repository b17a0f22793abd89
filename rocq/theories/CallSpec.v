(** What a user expects of arguments, calls and properties; see CallModel.v and AccSpec.v for the types. *)
From Coq Require Import NArith List Bool Arith.
From Verif Require Import TypesModel TypesSpec InheritModel InheritSpec AccModel AccSpec CallModel.
Import ListNotations.

(** ** C27 *)

(** Parameters of these types exist: arrays and functions become pointers. *)
Definition parameter_type (t : ty) : Prop :=
  match t with TBase _ _ b => b_kind b <> KFunction | TPtr _ _ _ => True | TArr _ _ => False end.

(** The object an argument expression stands for: what was written, what a wrapper refers to, what a variant contains.
    [k]: it may not be written because the variant is const. *)
Inductive stands_for : passed -> bool -> content -> Prop :=
| StObject c : stands_for (Object c) false (by_reference c)
| StWrapped c : stands_for (Wrapped c) false (by_reference c)
| StVariant k c : stands_for (Variant k (Some c)) k c.

Definition good_passed (p : passed) : Prop := forall k c, stands_for p k c -> usable (c_src c) /\ not_null c.

(** Same class or a base, or the type itself: what a reference may be bound to. *)
Inductive same_or_derived (e : env) (c : content) (T : ty) : place -> Prop :=
| SameType : similar (held c) T -> same_or_derived e c T Whole
| Derived i k z : class_type (held c) i -> class_type T k -> base_at e c k z -> same_or_derived e c T (Base z).

(** ** C28 *)

Fixpoint leading (l : list argument) : nat :=
  match l with
  | a :: l' => match g_value a with Some _ => S (leading l') | None => 0 end
  | [] => 0
  end.

(** The i-th argument is bound to the i-th parameter. *)
Definition bound_in_order (e : env) (params : list qty) (args : list argument) (bs : list bound) : Prop :=
  length bs = length params /\
  forall i q a b, nth_error params i = Some q -> nth_error args i = Some a -> nth_error bs i = Some b -> arg_value e a q = Got b.

(** ** C29 *)

(** The object [x] of class [k] that an instance stands for, and whether it may be written through it: held by the
    variant (then not if the variant is const), referred to, or pointed to. *)
Inductive names (e : env) (const_variant : bool) (c : content) (k : nat) (x : nat) : bool -> Prop :=
| NamesSelf : class_type (held c) k -> c_at c = x -> names e const_variant c k x (negb (protected const_variant (held c) 0))
| NamesBase i : class_type (held c) i -> i <> k -> base_at e c k x -> names e const_variant c k x (negb (protected const_variant (held c) 0))
| NamesPointee : pointer_type (held c) k -> c_ptr c = Some x -> names e const_variant c k x (negb (const_at (held c) 1))
| NamesPointeeBase i : pointer_type (held c) i -> i <> k -> base_at e c k x -> names e const_variant c k x (negb (const_at (held c) 1)).

(** No registered converter yields pointers to a class. *)
Definition no_pointer_converters (e : env) : Prop :=
  forall t u k, pointer_type u k -> e_conv e t (full_decay (mkQ RNone u)) = None.

(** Pointers can be copied. *)
Definition pointers_copy (e : env) : Prop := forall c v t, e_copies e (TPtr c v t) = true.

(** One class, one description. *)
Definition one_class (c : content) (b : base) : Prop :=
  forall t, held c = t \/ (exists cq v, held c = TPtr cq v t) -> class_type t (b_id b) -> base_type t = b.

(** ** C30 *)

(** What is read through what get returned. *)
Definition read_view (m : memory) (v : view) : option nat :=
  match v with Reference x => Some (m x) | Value w => Some w | Nothing => None end.
