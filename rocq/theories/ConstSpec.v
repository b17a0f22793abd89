(** What const objects and typed pointers are to mean for programs that use the library; see ConstModel.v for programs. *)
From Coq Require Import NArith List Bool Arith.
From Verif Require Import TypesModel TypesSpec InheritModel AccModel AccSpec CallModel CallSpec ConstModel.
Import ListNotations.

(** A place declared with type [d] may be seen as a [t]: no const is dropped at any level, and where one is added every
    level above has one ([conv.qual]). *)
Definition keeps_const (d t : ty) : Prop :=
  forall j, (const_at d j = true -> const_at t j = true) /\
    (const_at d j <> const_at t j -> forall i, i < j -> const_at t i = true).

(** [hosts x k]: at [x] there is an object of class [k], perhaps inside another one. *)
Definition is_a (P : places) (hosts : nat -> nat -> Prop) (x : nat) (t : ty) : Prop :=
  (exists k, class_type t k /\ hosts x k) \/ ((forall k, ~ class_type t k) /\ similar (decl P x) t).

Definition may_be_seen (P : places) (hosts : nat -> nat -> Prop) (x : nat) (t : ty) : Prop :=
  keeps_const (decl P x) t /\ is_a P hosts x t.

(** The objects are where the declarations of classes say: bases inside their derived objects, and as const as these;
    members at their offsets, const in const objects; what classInfo() tells is true. *)
Record sound (P : places) (e : env) (hosts : nat -> nat -> Prop) : Prop := {
  so_env : wf_env e;
  so_class : forall x k, class_type (decl P x) k -> hosts x k;
  so_hosts : forall x k, hosts x k -> exists k', class_type (decl P x) k';
  so_base : forall x d l i f, hosts x d -> nth_error (e_graph e) d = Some l -> In (i, f) l ->
    hosts (f x) i /\ const_at (decl P (f x)) 0 = const_at (decl P x) 0;
  so_dynamic : forall x k, hosts x k -> e_declares e k = true ->
    hosts (snd (e_dyn e k x)) (fst (e_dyn e k x)) /\ const_at (decl P (snd (e_dyn e k x))) 0 = const_at (decl P x) 0;
  so_member : forall x b off t, hosts x (b_id b) -> b_kind b = KClass -> field P b off = Some t ->
    decl P (x + off) = if const_at (decl P x) 0 then constify t else t;
  so_element : forall x t n i, decl P x = TArr t n -> (N.of_nat i < n)%N -> decl P (elem P x i) = t }.

(** No registered converter yields pointers. *)
Definition no_converted_pointers (e : env) : Prop :=
  forall t u, is_pointer (q_ty u) = true -> e_conv e t u = None.

(** Types without arrays at the top, volatile and seventeen or more levels. *)
Definition flat (t : ty) : Prop := usable t /\ is_array t = false.

Definition flat_source (t : option ty) : Prop := match t with Some u => flat u | None => True end.

(** The uses of the library to which the statement applies: of such types, and not a pointer to a derived class handed
    out as reference to a pointer to its base. *)
Definition tame (l : label) : Prop :=
  match l with
  | ByProgram | Copying => True
  | Wrapping t | Holding t | Converting t | Getting t => flat t
  | Accessing T p => flat T /\ p <> Slot
  | Binding q t b => flat (q_ty q) /\ parameter_type (q_ty q) /\ flat_source t /\ b <> Direct Slot
  | Calling m => b_kind (m_class m) = KClass
  | Setting T t => flat T /\ parameter_type T /\ flat_source t
  end.
