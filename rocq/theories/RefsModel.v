(** Model of references into variants: what `ref<T>()`, `cref<T>()` and pointers from `value<T*>()` hand out is the address
    that the table of the content gives (include/rtti/variant.h:341-342, 435; include/rtti/detail/variant_impl.h:73-76,
    138-141, 208-209, 280-281). Programs over variants are those of VarModel; which types the accessors admit is in AccModel. *)
From Coq Require Import List Bool Arith.
From Verif Require Import DeferModel VarModel.
Import ListNotations.

(** An address: inside of the storage of a variant (variant_impl.h:73-76), of a block on the heap (208-209, 280-281), or
    of an object outside (138-141). *)
Inductive place := Within (i : nat) | Block (b : nat) | Outside (e : nat).

(** A reference: the address and the type it is used with. include/rtti/variant.h:341-342, 435. *)
Record reference := Reference { r_ty : ty; r_at : place }.

(** include/rtti/variant.h:341-342 for the content of variant [i]; no reference if there is no content. *)
Definition take (vs : scope) (i : nat) : option reference :=
  match alive vs i with
  | Some (Var (Some t) (In_ _)) => Some (Reference t (Within i))
  | Some (Var (Some t) (Ptr b)) => Some (Reference t (Block b))
  | Some (Var (Some t) (Addr e)) => Some (Reference t (Outside e))
  | _ => None
  end.

(** Two of the booleans or shapes that describe a type (no lines of /repo). *)
Definition shape_eq_dec (a b : shape) : {a = b} + {a <> b}.
Proof. decide equality. Defined.
(** std::is_same, no line of /repo. *)
Definition ty_eq_dec (a b : ty) : {a = b} + {a <> b}.
Proof. decide equality; try apply bool_dec. apply shape_eq_dec. Defined.

(** Reading through a reference; [None]: undefined. A storage is read if there is an object of the reference's type in it
    (an object constructed in the place of another one of the same type is reached through references to that one); a
    block if it was not freed. No line of /repo: the client's expression. *)
Definition load (r : reference) (vs : scope) (s : store) : option nat :=
  match r_at r with
  | Within i =>
      match alive vs i with
      | Some (Var (Some t) (In_ o)) => if ty_eq_dec t (r_ty r) then val o else None
      | _ => None
      end
  | Block b => match block s b with Some o => val o | None => None end
  | Outside e => nth_error (ext s) e
  end.

(** Writing through a reference; [UB] where reading is. No line of /repo: the client's expression. *)
Definition save (r : reference) (x : nat) (vs : scope) (s : store) : out scope :=
  match r_at r with
  | Within i =>
      match alive vs i with
      | Some (Var (Some t) (In_ o)) =>
          if ty_eq_dec t (r_ty r) then Ok (put vs i (Some (Var (Some t) (In_ (Obj (Some x) (res o)))))) s else UB
      | _ => UB
      end
  | Block b =>
      match block s b with Some o => Ok vs (with_heap s (put (heap s) b (Some (Obj (Some x) (res o))))) | None => UB end
  | Outside e => if e <? length (ext s) then Ok vs (with_ext s (put (ext s) e x)) else UB
  end.
